(** The official INCAR tags: the top-level keys of /repo/parsevasp/incar.yml (604 keys),
    loaded by constants.incar_tags (parsevasp/constants.py:128-131). *)
From Coq Require Import String List.
From Verif Require Import PyBase.
Import ListNotations.
Local Open Scope string_scope.
Definition incar_tag_names : list string := [
  "addgrid"; "aexx"; "aggac"; "aggax"; "aldac"; "aldax"; "algo"; "amin";
  "amix"; "amix_mag"; "andersen_prob"; "antires"; "apaco"; "auger_bmax_eeh"; "auger_bmax_ehh"; "auger_bmin_eeh";
  "auger_bmin_ehh"; "auger_ecblo"; "auger_edens"; "auger_efermi"; "auger_emax_eeh"; "auger_emax_ehh"; "auger_emin_eeh"; "auger_emin_ehh";
  "auger_evbhi"; "auger_ewidth"; "auger_hdens"; "auger_occ_fac_eeh"; "auger_occ_fac_ehh"; "auger_temp"; "avecconst"; "avgap";
  "bconst"; "bext"; "bmix"; "bmix_mag"; "bparam"; "ch_amplification"; "ch_jdoscorehole"; "ch_lspec";
  "ch_nedos"; "ch_sigma"; "cll"; "cln"; "clnt"; "clz"; "cmbj"; "cmbja";
  "cmbjb"; "cnexp"; "cparam"; "cshift"; "darwinr"; "darwinv"; "deg_threshold"; "deper";
  "dfield"; "dim"; "dimer_dist"; "dipol"; "dq"; "dummy_k"; "dummy_mass"; "dummy_positions";
  "dummy_r0"; "dvvdelta0"; "dvvehistory"; "dvvmaxpotim"; "dvvminpotim"; "dvvminus"; "dvvvnorm0"; "ebreak";
  "ediff"; "ediffg"; "efermi"; "efield"; "efield_pead"; "eint"; "emax"; "emin";
  "enaug"; "enchg"; "encut"; "encut4o"; "encutae"; "encutfock"; "encutgw"; "encutgwlow";
  "encutgwsoft"; "encutlf"; "encutsubrotscf"; "engine"; "enini"; "enmax"; "epsilon"; "equi_regime";
  "eref"; "esemicore"; "estop"; "evenonly"; "evenonlygw"; "external_pressure"; "external_stress"; "exxoep";
  "fbias_a"; "fbias_d"; "fbias_r0"; "ferdo"; "ferwe"; "findiff"; "fletcher_reeves"; "fourorbit";
  "gga"; "gga_compat"; "griddeviation"; "hfalpha"; "hfkident"; "hflmax"; "hfrcut"; "hfscreen";
  "hfscreenc"; "hills_andersen_prob"; "hills_bin"; "hills_h"; "hills_k"; "hills_m"; "hills_maxstride"; "hills_position";
  "hills_sqq"; "hills_stride"; "hills_temperature"; "hills_variable_w"; "hills_velocity"; "hills_w"; "hills_wall_lower"; "hills_wall_upper";
  "hitoler"; "i_constrained_m"; "ialgo"; "iband"; "ibrion"; "ibse"; "icharg"; "ichibare";
  "icorelevel"; "idiot"; "idipol"; "iepsilon"; "igpar"; "images"; "imix"; "increm";
  "inimix"; "iniwav"; "interactive"; "ipead"; "irc_delta0"; "irc_direction"; "irc_maxstep"; "irc_minstep";
  "irc_stop"; "irc_vnorm0"; "irestart"; "isif"; "ismear"; "isp_index"; "isp_out"; "ispin";
  "istart"; "isym"; "itim"; "itmaxlsq"; "ivdw"; "iwavpr"; "jatom"; "kblock";
  "kblowup"; "kgamma"; "kimages"; "kinter"; "kpar"; "kpoint_bse"; "kproj_threshold"; "kpts_index";
  "kpts_out"; "kpuse"; "kspacing"; "l2order"; "l_wr_density"; "l_wr_moments"; "ladaptelin"; "ladder";
  "laddherm"; "laechg"; "lambda"; "langevin_gamma"; "langevin_gamma_l"; "lasph"; "lasync"; "lattice_constraints";
  "lauger"; "lauger_collect"; "lauger_dhdk"; "lauger_eeh"; "lauger_ehh"; "lauger_jit"; "lbeefbas"; "lbeefens";
  "lberry"; "lbfconst"; "lblueout"; "lbone"; "lcalceps"; "lcalcpol"; "lcfdm"; "lcharg";
  "lchargh5"; "lchgfit"; "lchimag"; "lcompat"; "lcorr"; "lcrpaplot"; "ldau"; "ldauj";
  "ldaul"; "ldauprint"; "ldautype"; "ldauu"; "ldiag"; "ldipol"; "ldisentangled"; "ldmatrix";
  "ldmp1"; "ldownsample"; "ldrude"; "ldyson"; "lefg"; "lelf"; "lelph"; "lelph_testing";
  "lepsilon"; "lfciinput"; "lfermigw"; "lfinite_temperature"; "lfockace"; "lfockaedft"; "lfxc"; "lfxceps";
  "lfxheg"; "lgauge"; "lgausrc"; "lgwlf"; "lh5"; "lhartree"; "lhfcalc"; "lhfone";
  "lhyperfine"; "lidm_selective"; "ligrids"; "linterfast"; "lintpol_conductivity"; "lintpol_kpath"; "lintpol_kpath_orb"; "lintpol_orb";
  "lintpol_velocity"; "lintpol_wpot"; "lj_epsilon"; "lj_only"; "lj_radius"; "lj_sigma"; "lkotani"; "lkproj";
  "llraug"; "lmagbloch"; "lmatchrw"; "lmaxfock"; "lmaxfockae"; "lmaxmix"; "lmaxmp2"; "lmaxpaw";
  "lmaxtau"; "lmetagga"; "lmimicfc"; "lmixtau"; "lmodelhf"; "lmono"; "lmp2lt"; "lmusic";
  "lnabla"; "lnicsall"; "lnlrpa"; "lnmr_sym_red"; "lnoncollinear"; "localize"; "localized_basis"; "locproj";
  "lonlysemicore"; "loptics"; "lorbit"; "lorbitalreal"; "lorbmom"; "lpade_fit"; "lpard"; "lpead";
  "lpead_sym_red"; "lphon"; "lphon_polar"; "lplane"; "lplotdis"; "lprojected"; "lrctype"; "lread_amn";
  "lread_eigenvalues"; "lreal"; "lregularize"; "lrelcor"; "lrelvol"; "lrhfatm"; "lrhfcalc"; "lrpa";
  "lrpaforce"; "lrscor"; "lrsrpa"; "lscaaware"; "lscalapack"; "lscaler0"; "lscalu"; "lscsgrad";
  "lselfenergy"; "lsepb"; "lsepk"; "lsingles"; "lsmp2lt"; "lsorbit"; "lspectral"; "lspectralgw";
  "lspiral"; "lstockholder"; "lsubrot"; "lsymgrad"; "ltctc"; "ltcte"; "ltemper"; "ltete";
  "lthomas"; "ltriplet"; "ltssurf"; "luse_vdw"; "luseorth_locprojs"; "lusew"; "lvcader"; "lvdw";
  "lvdw_ewald"; "lvdw_onecell"; "lvdw_relvolone"; "lvdw_sametype"; "lvdwexpansion"; "lvdwscs"; "lvel"; "lvhar";
  "lvpot"; "lvtot"; "lwannier"; "lwannier90"; "lwannier90_run"; "lwannierinterpol"; "lwave"; "lwaveh5";
  "lweighted"; "lwpot"; "lwrite_mmn_amn"; "lwrite_unk"; "lwrite_wanproj"; "lwrtcur"; "lwswq"; "lzeroz";
  "lzora"; "m_constr"; "magatom"; "magdipol"; "magmom"; "magpos"; "maxlie"; "maxmem";
  "maxmix"; "maxpwamp"; "mbd_beta"; "mcalpha"; "mdalgo"; "metagga"; "minrot"; "mixfirst";
  "mixpre"; "model_alpha"; "model_eps0"; "model_gw"; "mremove"; "naturalo"; "nbands"; "nbands_index";
  "nbands_out"; "nbandsexact"; "nbandsgw"; "nbandsgwlow"; "nbandshigh"; "nbandslf"; "nbandslow"; "nbandso";
  "nbandsv"; "nbconopt"; "nblk"; "nblock"; "nblock_fock"; "nbmod"; "nbseeig"; "nbvalopt";
  "ncore"; "ncore_in_image1"; "ncores_per_band"; "ncrpa_bands"; "ncshmem"; "ncycles"; "ndatalsq"; "ndav";
  "nedos"; "nelect"; "nelm"; "nelmall"; "nelmdl"; "nelmhf"; "nelmin"; "nfree";
  "ngaus"; "ngx"; "ngxf"; "ngy"; "ngyf"; "ngyromag"; "ngz"; "ngzf";
  "nkoffopt"; "nkopt"; "nkred"; "nkredlf"; "nkredlfx"; "nkredlfy"; "nkredlfz"; "nkredx";
  "nkredy"; "nkredz"; "nlspline"; "nmaxalt"; "nmaxfockae"; "nmin"; "nomega"; "nomega_dump";
  "nomega_index"; "nomega_out"; "nomegaadd"; "nomegapar"; "nomegar"; "npaco"; "npar"; "nppstr";
  "nreboot"; "nrmm"; "nscorrel"; "nsim"; "nstorb"; "nsubsys"; "nsw"; "ntarget_states";
  "ntaupar"; "ntemper"; "nthreads_a2a"; "nthreads_hi"; "nthreads_lo"; "nthreads_mu"; "nthreads_rproj"; "nucind";
  "nupdown"; "nwhigh"; "nwlow"; "nwrite"; "oddonly"; "oddonlygw"; "ofield_a"; "ofield_k";
  "ofield_kappa"; "ofield_q6_far"; "ofield_q6_near"; "omega_acont_start"; "omega_acont_stop"; "omegagrid"; "omegamax"; "omegamin";
  "omegatl"; "orbitalmag"; "pairpot"; "param1"; "param2"; "param3"; "pflat"; "phon_atom_indices";
  "phon_born_charges"; "phon_dielectric"; "phon_g_cutoff"; "phon_lbose"; "phon_lmc"; "phon_nstruct"; "phon_tlist"; "plevel";
  "pmass"; "pomass"; "potim"; "prec"; "precfock"; "proutine"; "pstress"; "psubsys";
  "pthreshold"; "qmaxfockae"; "qspiral"; "quad_efg"; "radeq"; "random_seed"; "rcmix"; "rcndl";
  "rcrep"; "rcrhocut"; "rcstrd"; "restartcg"; "rgaus"; "ropt"; "rtime"; "rwigs";
  "saxis"; "scalee"; "scaling"; "scissor"; "scsrad"; "shakemaxiter"; "shakesca"; "shaketol";
  "shaketolsoft"; "shiftred"; "sigma"; "skip_edotp"; "skip_scf"; "smass"; "smearings"; "spring";
  "spring_k"; "spring_r0"; "spring_v0"; "step_max"; "step_size"; "stm"; "switch"; "symprec";
  "system"; "tau0"; "tebeg"; "teend"; "telescope"; "thermostat"; "time"; "tmbpt";
  "tsubsys"; "turbo"; "value_max"; "value_min"; "vca"; "vcaimages"; "vcutoff"; "vdw_a1";
  "vdw_a2"; "vdw_alpha"; "vdw_c6"; "vdw_c6au"; "vdw_cnradius"; "vdw_d"; "vdw_idampf"; "vdw_mbd_size";
  "vdw_r0"; "vdw_r0au"; "vdw_radius"; "vdw_refstate"; "vdw_s6"; "vdw_s8"; "vdw_scaling"; "vdw_sr";
  "voskown"; "wanproj"; "wanproj_e"; "wanproj_i"; "wanproj_l"; "wc"; "weimin"; "wplasma";
  "wplasmai"; "zab_vdw"; "zct"; "zval"
].
Definition incar_tags : list str := map lit incar_tag_names.
