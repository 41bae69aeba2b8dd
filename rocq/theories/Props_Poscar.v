(** POSCAR properties (C12, C27, C28, C32-C35): statements about reading, dictionary
    sources and edits, with non-vacuity examples. *)
From Coq Require Import Ascii String List NArith ZArith QArith Qabs Bool Lia Arith Permutation.
From Verif Require Import PyBase PyNum PyStrLemmas PyNumLemmas PyFmtLemmas PyLines PyToken UtilsModel KpointsModel KpointsSpec KpointsEdits KpointsCodes
  PoscarModel ArithModel PoscarGroup PoscarSpec PoscarRead PoscarRoundTrip PoscarTheorems PoscarErrors.
Import ListNotations.
Local Open Scope list_scope.
Local Open Scope bool_scope.
Local Open Scope nat_scope.

(** A file used in the examples: cartesian, scaled, selective, with velocities. *)
Definition sample_lines : list str := map lit
  ["# GaAs sample"; "2.0"; "1 0.5 0"; "0 1 0"; "0 0.25 2"; "Ga As"; " 1  2"; "Selective dynamics"; "Cartesian";
   "0 0 0 T T F"; "0.5 0.5 0.5 F F F"; "0.25 1 0.75 T T T"; "Cartesian"; "1 0 0"; "0 1 0"; "0.125 0.25 0.5"]%string.
Definition sample : str := unlines sample_lines.
Definition direct_sample : str := unlines (map lit
  ["direct"; "2"; "1 0.5 0"; "0 1 0"; "0 0.25 2"; "Ga As"; " 1  2"; "Direct";
   "0 0 0"; "0.5 0.5 0.5"; "0.25 1 0.75"; "Direct"; "1 0 0"; "0 1 0"; "0.125 0.25 0.5"]%string).
Definition mixed_sample : str := unlines (map lit
  ["mixed"; "1"; "2 0 0"; "0 2 0"; "0 0 2"; "Ga"; "1"; "Cartesian"; "1 1 1"; "Direct"; "0.5 0.5 0.5"]%string).

(** ** C12 *)
Theorem C12_poscar_sources : forall A a,
  poscar_init A a = Exn (SysExit 10) <->
  let s := is_some (pa_string A a) in let d := is_some (pa_dict A a) in let p := is_some (pa_path A a) in let h := is_some (pa_handler A a) in
  s && d || s && p || d && p && h || negb (s || d || p || h) = true.
Proof. exact poscar_exit10. Qed.
Print Assumptions C12_poscar_sources.
(** two sources are accepted in three combinations; the dictionary is then ignored *)
Theorem C12_poscar_two_sources_refuted : forall A d txt,
  poscar_init A (PArgs A None (Some d) (Some (Some txt)) None) = poscar_of_file A txt /\
  poscar_init A (PArgs A None (Some d) None (Some txt)) = poscar_of_handler A txt /\
  poscar_init A (PArgs A (Some txt) None None (Some txt)) <> Exn (SysExit 10).
Proof.
  intros A d txt. split; [reflexivity|]. split; [reflexivity|]. intros H. apply C12_poscar_sources in H. discriminate.
Qed.
Print Assumptions C12_poscar_two_sources_refuted.

(** ** C27: the species of each site *)
(** line [i] is made of these integers *)
Definition counts_at (ls : list str) (i : nat) (zs : list Z) : Prop :=
  exists l, nth_error ls i = Some l /\ Forall2 (fun t z => parse_int t = Some z) (split_ws l) zs.
Lemma counts_fun l a b : Forall2 (fun t z => parse_int t = Some z) l a -> Forall2 (fun t z => parse_int t = Some z) l b -> a = b.
Proof.
  intros H. revert b. induction H as [|t z l a E F IH]; intros b K; inversion K; subst; auto. f_equal; [congruence|auto].
Qed.
(** what reading says about the sites, in terms of the header *)
Lemma read_species A ch txt es spec atoms : pread A ch txt = Ok es ->
  tokens_at (plines ch txt) 5 spec -> counts_at (plines ch txt) 6 atoms ->
  exists ss, pholds es "sites" (PSites A (map (SSite A) ss)) /\ length ss = Z.to_nat (total atoms) /\
    exists sps st', species_run spec atoms (Z.to_nat (total atoms)) (0, 1%Z) = Ok (sps, st') /\ map (si_specie A) ss = map lower sps.
Proof.
  intros R [l5 [E5 S5]] [l6 [E6 S6]].
  destruct (pread_reading A _ _ _ R) as (l0 & l1 & l2 & l3 & l4 & sc & r2 & r3 & r4 & spec' & atoms' & sel & dir & first & raw & hasv & vd & pred & vel & pre & ss & RD & B & HS & _).
  destruct (rd_spec _ _ _ _ _ _ _ _ _ _ _ _ _ _ _ _ _ _ _ _ _ _ _ RD) as (l5' & E5' & _ & S5'). rewrite E5 in E5'. inversion E5'. subst l5'. rewrite S5 in S5'. subst spec'.
  destruct (rd_atoms _ _ _ _ _ _ _ _ _ _ _ _ _ _ _ _ _ _ _ _ _ _ _ RD) as (l6' & E6' & S6'). rewrite E6 in E6'. inversion E6'. subst l6'.
  assert (atoms' = atoms) as -> by (eapply counts_fun; eauto).
  pose proof (rd_sites _ _ _ _ _ _ _ _ _ _ _ _ _ _ _ _ _ _ _ _ _ _ _ RD) as RS.
  apply read_sites_ok in RS as (L & _ & _ & st' & SR).
  exists ss. split; auto. split.
  - rewrite <- L. rewrite <- (build_sites_length A raw vel pre), B, map_length. reflexivity.
  - exists (map (fun r => fst (fst r)) raw), st'. split; auto. rewrite (built_species A _ _ _ _ B), map_map. reflexivity.
Qed.
(** When no count is zero, except possibly the last ones, the sites carry the species
    announced by the header, each as often as announced, in that order (Site lower-cases
    its specie). *)
Theorem C27_species_partial : forall A ch txt es spec positive zeros,
  pread A ch txt = Ok es ->
  tokens_at (plines ch txt) 5 spec -> counts_at (plines ch txt) 6 (positive ++ repeat 0%Z zeros) ->
  Forall (fun n => 0 < n)%Z positive ->
  exists ss, pholds es "sites" (PSites A (map (SSite A) ss)) /\
    length ss = Z.to_nat (total positive) /\
    map (si_specie A) ss = map lower (flat_map (fun sn => repeat (fst sn) (Z.to_nat (snd sn))) (combine spec positive)).
Proof.
  intros A ch txt es spec pos z R T C F. destruct (read_species A ch txt es spec _ R T C) as (ss & HS & L & sps & st' & SR & M).
  assert (total (repeat 0%Z z) = 0%Z) as TZ. { clear. induction z; [reflexivity|]. cbn [repeat]. rewrite total_cons, IHz. reflexivity. }
  exists ss. split; auto. split; [rewrite L, total_app, TZ, Z.add_0_r; reflexivity|].
  rewrite M. f_equal. apply species_positive in SR; auto.
  - rewrite SR. apply announced_zeros.
  - rewrite Z2Nat.id; auto. rewrite total_app, TZ. pose proof (total_nonneg pos F). lia.
Qed.
Print Assumptions C27_species_partial.
(** the site at position [i] of the block of the [j]-th species *)
Theorem C27_species_of_site_partial : forall A ch txt es spec positive j s n i,
  pread A ch txt = Ok es ->
  tokens_at (plines ch txt) 5 spec -> counts_at (plines ch txt) 6 positive -> Forall (fun n => 0 < n)%Z positive ->
  nth_error spec j = Some s -> nth_error positive j = Some n -> i < Z.to_nat n ->
  exists ss site, pholds es "sites" (PSites A (map (SSite A) ss)) /\
    nth_error ss (Z.to_nat (total (firstn j positive)) + i) = Some site /\ si_specie A site = lower s.
Proof.
  intros A ch txt es spec pos j s n i R T C F Hs Hn Hi.
  destruct (C27_species_partial A ch txt es spec pos 0 R T) as (ss & HS & L & M); [rewrite app_nil_r; auto|auto|].
  assert (nth_error (map (si_specie A) ss) (Z.to_nat (total (firstn j pos)) + i) = Some (lower s)) as N.
  { rewrite M, nth_error_map. clear -F Hs Hn Hi.
    assert (nth_error (flat_map (fun sn => repeat (fst sn) (Z.to_nat (snd sn))) (combine spec pos)) (Z.to_nat (total (firstn j pos)) + i) = Some s) as ->; [|reflexivity].
    revert spec j Hs Hn. induction F as [|p pos P F IH]; intros spec j Hs Hn; [destruct j; discriminate|].
    destruct spec as [|s0 spec]; [destruct j; discriminate|]. destruct j as [|j]; cbn [nth_error firstn] in *.
    - inversion Hs. inversion Hn. subst. cbn [combine flat_map fst snd total fold_left Z.to_nat Nat.add].
      rewrite nth_error_app1 by (rewrite repeat_length; auto). apply nth_error_repeat. auto.
    - cbn [combine flat_map fst snd]. rewrite total_cons. assert (0 <= total (firstn j pos))%Z as P2.
      { apply total_nonneg. clear -F. revert j. induction F as [|q pos Q F IH]; intros [|j]; cbn; constructor; auto. }
      rewrite nth_error_app2 by (rewrite repeat_length; lia). rewrite repeat_length.
      replace (Z.to_nat (p + total (firstn j pos)) + i - Z.to_nat p) with (Z.to_nat (total (firstn j pos)) + i) by lia. apply IH; auto. }
  rewrite nth_error_map in N. destruct (nth_error ss (Z.to_nat (total (firstn j pos)) + i)) as [st|] eqn:E; [|discriminate].
  exists ss, st. split; auto. split; auto. cbn in N. congruence.
Qed.
Print Assumptions C27_species_of_site_partial.
(** A zero count followed by another species always fails: the first site of a later
    species is given to the species that has no site. *)
Theorem C27_zero_count_refuted : forall A ch txt es spec p pos rest,
  pread A ch txt = Ok es ->
  tokens_at (plines ch txt) 5 spec -> counts_at (plines ch txt) 6 (p :: pos ++ 0%Z :: rest) ->
  Forall (fun n => 0 < n)%Z (p :: pos) -> (0 < total rest)%Z ->
  exists ss s site, pholds es "sites" (PSites A (map (SSite A) ss)) /\
    nth_error spec (length (p :: pos)) = Some s /\
    nth_error ss (Z.to_nat (total (p :: pos))) = Some site /\ si_specie A site = lower s.
Proof.
  intros A ch txt es spec p pos rest R T C F TR. destruct (read_species A ch txt es spec _ R T C) as (ss & HS & L & sps & st' & SR & M).
  assert (total (p :: pos ++ 0%Z :: rest) = total (p :: pos) + total rest)%Z as ET by (rewrite !total_cons, total_app, total_cons; lia).
  pose proof (total_pos p pos F) as TP.
  apply species_zero in SR as [S1 S2]; auto; [|rewrite Z2Nat.id by lia; lia].
  destruct (nth_error spec (length (p :: pos))) as [s|]; [|rewrite S1 in S2; congruence].
  assert (nth_error (map (si_specie A) ss) (Z.to_nat (total (p :: pos))) = Some (lower s)) as N by (rewrite M, nth_error_map, S1; reflexivity).
  rewrite nth_error_map in N. destruct (nth_error ss (Z.to_nat (total (p :: pos)))) as [st|] eqn:Est; [|discriminate].
  exists ss, s, st. split; auto. split; auto. split; auto. injection N as N. exact N.
Qed.
Print Assumptions C27_zero_count_refuted.
Definition species_of (r : res (pentries exact)) : list str :=
  match r with Ok es => match dget (lit "sites") es with
    | Some (PSites _ l) => map (fun v => match v with SSite _ s => si_specie exact s | _ => [] end) l | _ => [] end | Exn _ => [] end.
Example C27_case : species_of (pread exact FromFile sample) = map lit ["ga"; "as"; "as"]%string /\
  tokens_at (plines FromFile sample) 5 [lit "Ga"; lit "As"] /\ counts_at (plines FromFile sample) 6 [1; 2]%Z.
Proof.
  split; [vm_compute; reflexivity|]. split; [eexists; split; vm_compute; reflexivity|]. eexists. split; [vm_compute; reflexivity|]. vm_compute. repeat constructor.
Qed.
Example C27_zero_case : species_of (pread exact FromString (unlines (map lit
  ["zero"; "1"; "1 0 0"; "0 1 0"; "0 0 1"; "Ga Xx As"; "1 0 1"; "Direct"; "0 0 0"; "0.5 0.5 0.5"]%string))) = map lit ["ga"; "xx"]%string.
Proof. vm_compute. reflexivity. Qed.

(** ** C28: lattice and coordinates *)
Definition scaling_at (A : arith) (ls : list str) (s : num A) : Prop :=
  exists l t r, nth_error ls 1 = Some l /\ split_ws l = t :: r /\ nparse A t = Some s.
Definition cell_at (A : arith) (ls : list str) (cell : list (list (num A))) : Prop :=
  exists l2 l3 l4 r2 r3 r4, nth_error ls 2 = Some l2 /\ nth_error ls 3 = Some l3 /\ nth_error ls 4 = Some l4 /\
    number_line A l2 r2 /\ number_line A l3 r3 /\ number_line A l4 r4 /\ cell = [r2; r3; r4].
Lemma layout_fun ls s d f s' d' f' : layout ls s d f -> layout ls s' d' f' -> s = s' /\ d = d' /\ f = f'.
Proof.
  intros H K. apply read_mode_ok in H. apply read_mode_ok in K. rewrite H in K. inversion K. auto.
Qed.
(** the sites of a file, line by line *)
Lemma read_positions A ch txt es selective direct first : pread A ch txt = Ok es -> layout (plines ch txt) selective direct first ->
  exists ss sc cell, pholds es "sites" (PSites A (map (SSite A) ss)) /\ scaling_at A (plines ch txt) sc /\ cell_at A (plines ch txt) cell /\
    pholds es "unitcell" (PMat A (map (map (nmul A sc)) cell)) /\ square3 A (map (map (nmul A sc)) cell) /\
    forall i s, nth_error ss i = Some s -> exists l x y z, nth_error (plines ch txt) (first + i) = Some l /\ three_numbers A l x y z /\
      (if direct then si_position A s = [nmul A x (n1 A); nmul A y (n1 A); nmul A z (n1 A)]
       else to_direct A [nmul A x sc; nmul A y sc; nmul A z sc] (map (map (nmul A sc)) cell) = Ok (si_position A s)) /\
      si_direct A s = true /\
      (if selective then flags3 l = Ok (si_selective A s) else si_selective A s = [true; true; true]).
Proof.
  intros R LY.
  destruct (pread_reading A _ _ _ R) as (l0 & l1 & l2 & l3 & l4 & sc & r2 & r3 & r4 & spec' & atoms' & sel & dir & fst' & raw & hasv & vd & pred & vel & pre & ss & RD & B & HS & HU & CO).
  destruct (layout_fun _ _ _ _ _ _ _ LY (rd_mode _ _ _ _ _ _ _ _ _ _ _ _ _ _ _ _ _ _ _ _ _ _ _ RD)) as (<- & <- & <-).
  exists ss, sc, [r2; r3; r4]. split; auto. split; [|split; [|split; [auto|split; [exact CO|]]]].
  - destruct (rd_scaling _ _ _ _ _ _ _ _ _ _ _ _ _ _ _ _ _ _ _ _ _ _ _ RD) as (t & r & E & P). exists l1, t, r. split; [apply (rd_1 _ _ _ _ _ _ _ _ _ _ _ _ _ _ _ _ _ _ _ _ _ _ _ RD)|auto].
  - destruct (rd_2 _ _ _ _ _ _ _ _ _ _ _ _ _ _ _ _ _ _ _ _ _ _ _ RD). destruct (rd_3 _ _ _ _ _ _ _ _ _ _ _ _ _ _ _ _ _ _ _ _ _ _ _ RD). destruct (rd_4 _ _ _ _ _ _ _ _ _ _ _ _ _ _ _ _ _ _ _ _ _ _ _ RD).
    exists l2, l3, l4, r2, r3, r4. auto 10.
  - pose proof (rd_sites _ _ _ _ _ _ _ _ _ _ _ _ _ _ _ _ _ _ _ _ _ _ _ RD) as RS. apply read_sites_ok in RS as (L & L2 & F & _).
    intros i s Hi. destruct (built_site_nth A _ _ _ _ _ _ B Hi) as (r & Hr & ->).
    assert (i < length raw) as Li by (apply nth_error_Some; congruence).
    assert (exists l, nth_error (firstn (Z.to_nat (total atoms')) (skipn first (plines ch txt))) i = Some l /\ site_line A direct selective sc (map (map (nmul A sc)) [r2; r3; r4]) l r) as (l & Hl & SL).
    { clear -F Hr. revert i Hr. induction F as [|l r0 ls raw P F IH]; intros [|i] Hr; cbn in *; try discriminate; [|apply IH; auto]. inversion Hr. subst. eauto. }
    assert (nth_error (plines ch txt) (first + i) = Some l) as Hl2.
    { clear -Hl L Li. revert Hl. rewrite <- L. intros Hl.
      assert (forall (T : Type) n (m : list T) j x, nth_error (firstn n m) j = Some x -> nth_error m j = Some x) as K1.
      { clear. intros T n. induction n; intros [|a m] [|j] x H; cbn in *; try discriminate; eauto. }
      assert (forall (T : Type) n (m : list T) j, nth_error (skipn n m) j = nth_error m (n + j)) as K2.
      { clear. intros T n. induction n; intros [|a m] j; cbn; auto; destruct j; auto. }
      apply K1 in Hl. rewrite K2 in Hl. exact Hl. }
    destruct SL as (x & y & z & T3 & P & FL). exists l, x, y, z. split; [auto|]. split; [auto|]. cbn [Site si_position si_direct si_selective]. auto.
Qed.
(** The lattice is the scaling times the three rows of numbers. *)
Theorem C28_lattice : forall A ch txt es selective direct first, pread A ch txt = Ok es -> layout (plines ch txt) selective direct first ->
  exists sc rows, scaling_at A (plines ch txt) sc /\ cell_at A (plines ch txt) rows /\
    pholds es "unitcell" (PMat A (map (map (fun x => nmul A sc x)) rows)).
Proof.
  intros A ch txt es selective direct first R LY. destruct (read_positions A ch txt es _ _ _ R LY) as (ss & sc & cell & _ & H1 & H2 & H3 & _).
  exists sc, cell. auto.
Qed.
Print Assumptions C28_lattice.
(** In a file labelled direct, the numbers on the i-th line of positions are the
    coordinates of the i-th site: in IEEE doubles whatever numpy does elsewhere, and
    in exact arithmetic. *)
Theorem C28_direct_unchanged : forall A ch txt es selective first,
  (exists d i, A = binary64 d i) \/ A = exact ->
  pread A ch txt = Ok es -> layout (plines ch txt) selective true first ->
  exists ss, pholds es "sites" (PSites A (map (SSite A) ss)) /\
    forall i s, nth_error ss i = Some s -> exists l x y z,
      nth_error (plines ch txt) (first + i) = Some l /\ three_numbers A l x y z /\ si_position A s = [x; y; z].
Proof.
  intros A ch txt es selective first HA R LY.
  assert (unit_ok A) as UO by (destruct HA as [[d [i ->]]| ->]; [apply binary64_unit|apply exact_unit]).
  destruct (read_positions A ch txt es _ _ _ R LY) as (ss & sc & cell & HS & _ & _ & _ & _ & P). exists ss. split; auto.
  intros i s Hi. destruct (P i s Hi) as (l & x & y & z & Hl & T & E & _). exists l, x, y, z. split; auto. split; auto. rewrite E.
  destruct T as (a & b & c & r & _ & Ha & Hb & Hc). rewrite !(uo_r A UO _ _ Ha), !(uo_r A UO _ _ Hb), !(uo_r A UO _ _ Hc). reflexivity.
Qed.
Print Assumptions C28_direct_unchanged.
(** In a cartesian file, the stored direct coordinates d satisfy d L = scaling times the
    three numbers, L being the stored lattice (exact arithmetic). *)
Theorem C28_cartesian_converted : forall ch txt es selective first,
  pread exact ch txt = Ok es -> layout (plines ch txt) selective false first ->
  exists ss sc L, pholds es "sites" (PSites exact (map (SSite exact) ss)) /\ scaling_at exact (plines ch txt) sc /\
    pholds es "unitcell" (PMat exact L) /\
    forall i s, nth_error ss i = Some s -> exists l x y z,
      nth_error (plines ch txt) (first + i) = Some l /\ three_numbers exact l x y z /\
      veq (qdot (si_position exact s) L) [x * sc; y * sc; z * sc]%Q.
Proof.
  intros ch txt es selective first R LY.
  destruct (read_positions exact ch txt es _ _ _ R LY) as (ss & sc & cell & HS & SC & _ & HU & SQ & P). exists ss, sc, (map (map (Qmult sc)) cell). split; auto. split; auto. split; auto.
  intros i s Hi. destruct (P i s Hi) as (l & x & y & z & Hl & T & E & _). exists l, x, y, z. split; auto. split; auto.
  unfold to_direct, inv in E. destruct (square exact _); [|discriminate]. apply bind_ok in E as [m [Em E]]. apply of_option_ok in Em.
  unfold dot in E. destruct (_ =? _) in E; [|discriminate]. inversion E as [E2]. cbn [exact ninv ndot nmul] in *.
  rewrite E2 in *. destruct (qinv_spec _ _ (x * sc) (y * sc) (z * sc) Em) as [V _]. rewrite <- E2. exact V.
Qed.
Print Assumptions C28_cartesian_converted.
Definition reads (r : res (pentries exact)) : bool := match r with Ok _ => true | Exn _ => false end.
Example C28_case : reads (pread exact FromFile sample) = true /\ layout (plines FromFile sample) true false 9 /\
  reads (pread exact FromFile direct_sample) = true /\ layout (plines FromFile direct_sample) false true 8.
Proof.
  split; [vm_compute; reflexivity|]. split; [apply read_mode_ok; vm_compute; reflexivity|].
  split; [vm_compute; reflexivity|apply read_mode_ok; vm_compute; reflexivity].
Qed.

(** ** C32: velocities *)
Lemma read_vels A ch txt es selective direct first atoms c :
  pread A ch txt = Ok es -> layout (plines ch txt) selective direct first -> counts_at (plines ch txt) 6 atoms -> (0 <= total atoms)%Z ->
  starts (plines ch txt) (first + Z.to_nat (total atoms)) c -> (lower1 c = "d"%char \/ lower1 c = "c"%char) ->
  exists ss L, pholds es "sites" (PSites A (map (SSite A) ss)) /\ pholds es "unitcell" (PMat A L) /\
    length ss = Z.to_nat (total atoms) /\
    forall i s, nth_error ss i = Some s -> exists l x y z v,
      nth_error (plines ch txt) (first + Z.to_nat (total atoms) + 1 + i) = Some l /\ three_numbers A l x y z /\
      si_velocities A s = Some v /\
      (if direct && aeqb (lower1 c) "d" then v = [x; y; z] else to_direct A [x; y; z] L = Ok v).
Proof.
  intros R LY [l6 [E6 S6]] TP [lr Hc] HC.
  destruct (pread_reading A _ _ _ R) as (l0 & l1 & l2 & l3 & l4 & sc & r2 & r3 & r4 & spec' & atoms' & sel & dir & fst' & raw & hasv & vd & pred & vel & pre & ss & RD & B & HS & HU & CO).
  destruct (layout_fun _ _ _ _ _ _ _ LY (rd_mode _ _ _ _ _ _ _ _ _ _ _ _ _ _ _ _ _ _ _ _ _ _ _ RD)) as (<- & <- & <-).
  destruct (rd_atoms _ _ _ _ _ _ _ _ _ _ _ _ _ _ _ _ _ _ _ _ _ _ _ RD) as (l6' & E6' & S6'). rewrite E6 in E6'. inversion E6'. subst l6'.
  assert (atoms' = atoms) as -> by (eapply counts_fun; eauto). clear E6' S6'.
  pose proof (rd_tail _ _ _ _ _ _ _ _ _ _ _ _ _ _ _ _ _ _ _ _ _ _ _ RD) as RT. pose proof (rd_vel _ _ _ _ _ _ _ _ _ _ _ _ _ _ _ _ _ _ _ _ _ _ _ RD) as RV.
  pose proof (rd_sites _ _ _ _ _ _ _ _ _ _ _ _ _ _ _ _ _ _ _ _ _ _ _ RD) as RS. apply read_sites_ok in RS as (L & _ & _ & _).
  set (n := Z.to_nat (total atoms)) in *. assert (total atoms = Z.of_nat n) as ET by (unfold n; lia).
  assert (hasv = true /\ vd = direct && aeqb (lower1 c) "d") as [-> ->].
  { clear -RT Hc HC ET. rewrite ET in RT. rewrite <- Nat2Z.inj_add in RT. replace (n + first) with (first + n) in RT by lia. unfold read_tail_mode in RT.
    assert (first + n < length (plines ch txt)) as LT by (apply nth_error_Some; congruence).
    assert ((Z.of_nat (first + n) <? Z.of_nat (length (plines ch txt)))%Z = true) as K by (apply Z.ltb_lt; lia). rewrite K in RT. clear K.
    rewrite zat_nat in RT. unfold py_nth at 1 in RT. rewrite Hc in RT. cbn [of_option bind nth_error py_nth] in RT.
    assert ((let* (v, d, pr) := (if aeqb (lower1 c) "d" then Ok (true, direct, false) else if aeqb (lower1 c) "c" then Ok (true, false, false)
      else Ok (false, direct, blank_line (c :: lr))) in Ok (v, d)) = Ok (true, direct && aeqb (lower1 c) "d")) as E.
    { destruct HC as [-> | ->]; cbn; rewrite ?andb_true_r, ?andb_false_r; reflexivity. }
    destruct (if aeqb (lower1 c) "d" then Ok (true, direct, false) else _) as [[[v d] pr]|]; [|discriminate]. cbn [bind] in E. inversion E; subst. cbn [bind] in RT.
    destruct (_ <? _)%Z in RT; [|inversion RT; auto].
    apply bind_ok in RT as [q [_ RT]]. apply bind_ok in RT as [t [_ RT]]. destruct (is_number t); [inversion RT; auto|discriminate]. }
  destruct RV as (v & -> & RV & _). rewrite ET in RV. replace (Z.to_nat (Z.of_nat n + Z.of_nat first + 1)) with (first + n + 1) in RV by lia.
  exists ss, (map (map (nmul A sc)) [r2; r3; r4]). split; auto. split; auto.
  assert (length ss = n) as LS by (rewrite <- L, <- (build_sites_length A raw (Some v) pre), B, map_length; reflexivity). split; auto.
  intros i s Hi. destruct (built_site_nth A _ _ _ _ _ _ B Hi) as (r & Hr & ->). cbn [Site si_velocities opt_nth].
  assert (i < n) as Li by (rewrite <- LS; apply nth_error_Some; congruence).
  unfold read_velocities in RV. apply mapM_ok_Forall2 in RV.
  assert (nth_error (seq (first + n + 1) n) i = Some (first + n + 1 + i)) as NS.
  { clear -Li. rewrite (nth_error_nth' _ 0) by (rewrite seq_length; auto). rewrite seq_nth; auto. }
  assert (exists w, nth_error v i = Some w /\ (let* l := py_nth (plines ch txt) (first + n + 1 + i) in
    let* u := num3 A l (fun x => x) in if direct && aeqb (lower1 c) "d" then Ok u else to_direct A u (map (map (nmul A sc)) [r2; r3; r4])) = Ok w) as (w & Hw & P).
  { clear -RV NS. revert NS. generalize (first + n + 1 + i). intros k. revert i. induction RV as [|a b la lb Q F IH]; intros [|i] NS; cbn in *; try discriminate.
    - inversion NS. subst. exists b. auto.
    - apply IH; auto. }
  apply bind_ok in P as [l [P1 P]]. apply bind_ok in P as [u [P2 P]]. apply py_nth_ok in P1. apply num3_ok in P2 as (x & y & z & T & ->).
  exists l, x, y, z, w. split; auto. split; auto. split; auto. destruct (direct && aeqb (lower1 c) "d"); [inversion P; auto|auto].
Qed.
Lemma to_direct_exact x y z m d : to_direct exact [x; y; z] m = Ok d -> veq (qdot d m) [x; y; z].
Proof.
  unfold to_direct, inv. destruct (square exact _); [|discriminate]. intros E. apply bind_ok in E as [i [Em E]]. apply of_option_ok in Em.
  unfold dot in E. destruct (_ =? _) in E; [|discriminate]. inversion E as [E2]. cbn [exact ninv ndot nmul] in *.
  destruct (qinv_spec _ _ x y z Em) as [V _]. exact V.
Qed.
(** Velocities labelled cartesian are always converted to direct coordinates v with
    v L = the numbers; labelled direct they are kept unchanged if the positions are
    labelled direct as well. *)
Theorem C32_velocities_partial : forall ch txt es selective direct first atoms c,
  pread exact ch txt = Ok es -> layout (plines ch txt) selective direct first -> counts_at (plines ch txt) 6 atoms -> (0 <= total atoms)%Z ->
  starts (plines ch txt) (first + Z.to_nat (total atoms)) c ->
  lower1 c = "c"%char \/ (lower1 c = "d"%char /\ direct = true) ->
  exists ss L, pholds es "sites" (PSites exact (map (SSite exact) ss)) /\ pholds es "unitcell" (PMat exact L) /\ length ss = Z.to_nat (total atoms) /\
    forall i s, nth_error ss i = Some s -> exists l x y z v,
      nth_error (plines ch txt) (first + Z.to_nat (total atoms) + 1 + i) = Some l /\ three_numbers exact l x y z /\
      si_velocities exact s = Some v /\
      (lower1 c = "d"%char -> v = [x; y; z]) /\ (lower1 c = "c"%char -> veq (qdot v L) [x; y; z]).
Proof.
  intros ch txt es sel direct first atoms c R LY CA TP ST HC.
  destruct (read_vels exact ch txt es sel direct first atoms c R LY CA TP ST) as (ss & L & H1 & H2 & H3 & P); [tauto|].
  exists ss, L. split; auto. split; auto. split; auto. intros i s Hi. destruct (P i s Hi) as (l & x & y & z & v & Q1 & Q2 & Q3 & Q4).
  exists l, x, y, z, v. split; auto. split; auto. split; auto. destruct HC as [E|[E ->]].
  - rewrite E in *. change (aeqb "c" "d") with false in Q4. rewrite andb_false_r in Q4. split; [discriminate|]. intros _. apply to_direct_exact; auto.
  - rewrite E in *. cbn in Q4. split; [auto|discriminate].
Qed.
Print Assumptions C32_velocities_partial.
(** Velocities labelled direct below cartesian positions are always treated as
    cartesian: multiplied by the inverse lattice instead of being kept. *)
Theorem C32_label_ignored_refuted : forall ch txt es selective first atoms c,
  pread exact ch txt = Ok es -> layout (plines ch txt) selective false first -> counts_at (plines ch txt) 6 atoms -> (0 <= total atoms)%Z ->
  starts (plines ch txt) (first + Z.to_nat (total atoms)) c -> lower1 c = "d"%char ->
  exists ss L, pholds es "sites" (PSites exact (map (SSite exact) ss)) /\ pholds es "unitcell" (PMat exact L) /\ length ss = Z.to_nat (total atoms) /\
    forall i s, nth_error ss i = Some s -> exists l x y z v,
      nth_error (plines ch txt) (first + Z.to_nat (total atoms) + 1 + i) = Some l /\ three_numbers exact l x y z /\
      si_velocities exact s = Some v /\ veq (qdot v L) [x; y; z].
Proof.
  intros ch txt es sel first atoms c R LY CA TP ST HC.
  destruct (read_vels exact ch txt es sel false first atoms c R LY CA TP ST) as (ss & L & H1 & H2 & H3 & P); [tauto|].
  exists ss, L. split; auto. split; auto. split; auto. intros i s Hi. destruct (P i s Hi) as (l & x & y & z & v & Q1 & Q2 & Q3 & Q4).
  exists l, x, y, z, v. split; auto. split; auto. split; auto. apply to_direct_exact. exact Q4.
Qed.
Print Assumptions C32_label_ignored_refuted.
(** with lattice 2 and direct velocity (1/2, 1/2, 1/2) the velocity read is (1/4, 1/4, 1/4) *)
Definition velocities_of (r : res (pentries exact)) : list (option (list Q)) :=
  match r with Ok es => match dget (lit "sites") es with
    | Some (PSites _ l) => map (fun v => match v with SSite _ s => option_map (map Qred) (si_velocities exact s) | _ => None end) l | _ => [] end | Exn _ => [] end.
Example C32_case :
  velocities_of (pread exact FromFile mixed_sample) = [Some [1 # 4; 1 # 4; 1 # 4]%Q] /\
  velocities_of (pread exact FromFile direct_sample) = [Some [1; 0; 0]%Q; Some [0; 1; 0]%Q; Some [1 # 8; 1 # 4; 1 # 2]%Q] /\
  starts (plines FromFile sample) 12 "C" /\ starts (plines FromFile mixed_sample) 9 "D" /\ counts_at (plines FromFile mixed_sample) 6 [1%Z].
Proof.
  split; [vm_compute; reflexivity|]. split; [vm_compute; reflexivity|].
  split; [eexists; vm_compute; reflexivity|]. split; [eexists; vm_compute; reflexivity|]. eexists. split; [vm_compute; reflexivity|]. vm_compute. repeat constructor.
Qed.

(** ** C33: sites given in a dictionary *)
Definition dict_site_given (A : arith) (v : sv A) : Prop := exists d, v = SDict A d.
(** Any object constructed from a dictionary with at least one site given as a
    dictionary cannot be written. *)
Lemma from_dict_ok A es es' : from_dict A es = Ok es' ->
  (exists l l', pholds es "sites" (PSites A l) /\ mapM (from_dict_site A (let* u := pkey A es "unitcell" in unitcell_of A u)) l = Ok l' /\ es' = dset (lit "sites") (PSites A l') es) \/
  (es' = es /\ forall l, ~ pholds es "sites" (PSites A l)).
Proof.
  unfold from_dict. intros H. apply bind_ok in H as [s [H1 H]]. apply of_option_ok in H1. destruct s; try discriminate.
  - right. destruct s; [|discriminate]. inversion H. split; auto. intros l K. unfold pholds in K. subst. congruence.
  - right. destruct m; [|discriminate]. inversion H. split; auto. intros l K. unfold pholds in K. subst. congruence.
  - left. apply bind_ok in H as [l' [H2 H]]. inversion H. exists l, l'. auto.
Qed.
Lemma poscar_of_dict_ok A es es' : poscar_of_dict A es = Ok es' <-> from_dict A es = Ok es' /\ validate A es' = Ok tt.
Proof.
  unfold poscar_of_dict, poscar_init. cbn [is_some pa_string pa_dict pa_path pa_handler orb andb negb bind]. split.
  - intros H. apply bind_ok in H as [e [H1 H]]. apply bind_ok in H as [[] [H2 H]]. inversion H. subst. auto.
  - intros [-> H]. cbn [bind]. rewrite H. reflexivity.
Qed.
Lemma validate_comment A es : validate A es = Ok tt ->
  (exists co, pholds es "comment" co) /\ (exists m, pholds es "unitcell" (PMat A m)) /\ (exists l, pholds es "sites" (PSites A l)).
Proof.
  unfold validate, check_comment, check_unitcell, check_sites, arg_or, pkey, pholds. intros H.
  apply bind_ok in H as [[] [H1 H]]. apply bind_ok in H as [[] [H2 H3]].
  destruct (dget (lit "comment") es) as [co|]; [|discriminate]. destruct (dget (lit "unitcell") es) as [u|]; [|discriminate]. destruct (dget (lit "sites") es) as [s|]; [|discriminate].
  cbn [of_option bind] in *. destruct u as [| |m| | |]; try discriminate. destruct s as [| | |l| |]; try discriminate.
  split; [exists co; reflexivity|]. split; [exists m; reflexivity|exists l; reflexivity].
Qed.
Theorem C33_dict_sites_refuted : forall A es es' l prec conserve wd,
  poscar_of_dict A es = Ok es' -> pholds es "sites" (PSites A l) -> Exists (dict_site_given A) l ->
  get_string A prec conserve wd es' = Exn AttributeError.
Proof.
  intros A es es' l prec conserve wd H HL EX. apply poscar_of_dict_ok in H as [H V].
  destruct (from_dict_ok A _ _ H) as [(l2 & l' & HL2 & M & ->)|[_ K]]; [|exfalso; eapply K; eauto].
  unfold pholds in *. rewrite HL in HL2. inversion HL2. subst l2. clear HL2.
  set (es' := dset (lit "sites") (PSites A l') es) in *.
  assert (dget (lit "sites") es' = Some (PSites A l')) as HS by apply dget_dset_same.
  unfold get_string, write_lines. rewrite V. cbn [bind]. unfold pkey at 1 2 3. rewrite HS.
  destruct (validate_comment A _ V) as [[co HC] [[m HU] _]]. unfold pholds in *. rewrite HC, HU. cbn [of_option bind unitcell_of].
  assert (mapM (wsite_of A) l' = Exn AttributeError) as ->; [|reflexivity].
  clear -M EX. revert l' M. induction EX as [v l [d ->]|v l EX IH]; intros l' M; cbn [mapM] in M.
  - apply bind_ok in M as [w [M1 M]]. apply bind_ok in M as [ws [M2 M]]. inversion M. subst. cbn [from_dict_site] in M1.
    repeat (apply bind_ok in M1 as [? [_ M1]]). inversion M1. reflexivity.
  - apply bind_ok in M as [w [M1 M]]. apply bind_ok in M as [ws [M2 M]]. inversion M. subst. cbn [mapM].
    destruct v as [s|d|]; [|repeat (apply bind_ok in M1 as [? [_ M1]]); inversion M1; reflexivity|discriminate].
    cbn [from_dict_site] in M1. destruct (si_direct A s) eqn:D.
    + inversion M1. cbn [wsite_of]. rewrite D. cbn [bind]. rewrite (IH _ M2). reflexivity.
    + apply bind_ok in M1 as [? [_ M1]]. apply bind_ok in M1 as [? [_ M1]]. apply bind_ok in M1 as [? [_ M1]]. inversion M1. cbn [wsite_of si_direct bind]. rewrite (IH _ M2). reflexivity.
Qed.
Print Assumptions C33_dict_sites_refuted.
(** Site objects are kept: those in direct coordinates as they are, cartesian ones
    converted, d L = the given position (and velocity). *)
Definition site_converted (L : list (list Q)) (s s' : site exact) : Prop :=
  si_specie exact s' = si_specie exact s /\ si_selective exact s' = si_selective exact s /\ si_predictors exact s' = si_predictors exact s /\
  si_direct exact s' = true /\
  if si_direct exact s then s' = s
  else forall x y z, si_position exact s = [x; y; z] -> veq (qdot (si_position exact s') L) [x; y; z] /\
       match si_velocities exact s, si_velocities exact s' with
       | None, None => True
       | Some v, Some v' => forall a b c, v = [a; b; c] -> veq (qdot v' L) [a; b; c]
       | _, _ => False
       end.
Theorem C33_site_objects_partial : forall es es' ss,
  poscar_of_dict exact es = Ok es' -> pholds es "sites" (PSites exact (map (SSite exact) ss)) ->
  exists ss' L, pholds es' "sites" (PSites exact (map (SSite exact) ss')) /\ pholds es' "unitcell" (PMat exact L) /\
    Forall2 (site_converted L) ss ss'.
Proof.
  intros es es' ss H HL. apply poscar_of_dict_ok in H as [H V].
  destruct (from_dict_ok exact _ _ H) as [(l2 & l' & HL2 & M & ->)|[_ K]]; [|exfalso; eapply K; eauto].
  unfold pholds in *. rewrite HL in HL2. inversion HL2. subst l2. clear HL2.
  destruct (validate_comment exact _ V) as [_ [[m HU] _]]. unfold pholds in HU. rewrite dget_dset_other in HU by discriminate.
  unfold pkey in M. rewrite HU in M. cbn [of_option bind unitcell_of] in M.
  assert (exists ss', l' = map (SSite exact) ss' /\ Forall2 (site_converted m) ss ss') as (ss' & -> & F).
  { clear -M. revert l' M. induction ss as [|s ss IH]; intros l' M; cbn [mapM map] in M.
    - inversion M. exists []. auto.
    - apply bind_ok in M as [w [M1 M]]. apply bind_ok in M as [ws [M2 M]]. inversion M. subst. destruct (IH _ M2) as (ss' & -> & F).
      cbn [from_dict_site] in M1. destruct (si_direct exact s) eqn:D.
      + inversion M1. exists (s :: ss'). split; auto. constructor; auto. unfold site_converted. rewrite D. auto.
      + cbn [bind] in M1. apply bind_ok in M1 as [p [P1 M1]]. apply bind_ok in M1 as [v [P2 M1]]. inversion M1.
        eexists (_ :: ss'). split; [reflexivity|]. constructor; auto. unfold site_converted. cbn [si_specie si_position si_selective si_velocities si_predictors si_direct].
        rewrite D. repeat (split; [reflexivity|]). intros x y z E. rewrite E in P1. split; [apply to_direct_exact; auto|].
        destruct (si_velocities exact s) as [u|]; [|inversion P2; auto]. apply bind_ok in P2 as [u' [P2 P3]]. inversion P3. intros a b c ->. apply to_direct_exact. auto. }
  exists ss', m. split; [apply dget_dset_same|]. split; auto. rewrite dget_dset_other by discriminate. auto.
Qed.
Print Assumptions C33_site_objects_partial.
Definition cell_one : list (list Q) := [[2; 0; 0]; [0; 1; 0]; [0; 0; 1]]%Q.
Definition dict_case : pentries exact := [(lit "comment", PNone exact); (lit "unitcell", PMat exact cell_one);
  (lit "sites", PSites exact [SDict exact (SDictionary exact (Some (lit "H")) (Some [0; 0; 0]%Q) (Some [true; true; true]) (Some None) (Some None) (Some true))])].
Definition site_case : pentries exact := [(lit "comment", PNone exact); (lit "unitcell", PMat exact cell_one);
  (lit "sites", PSites exact [SSite exact (Site exact (lit "H") [1; 0; 0]%Q None None None false)])].
Example C33_case : poscar_of_dict exact dict_case = Ok dict_case /\ reads (poscar_of_dict exact site_case) = true /\
  velocities_of (poscar_of_dict exact site_case) = [None].
Proof. split; [reflexivity|]. split; vm_compute; reflexivity. Qed.

(** ** C34: a missing species line *)
(** exactly when reading exits with 301: the sixth line, cut at each single blank, is
    made of numbers *)
Theorem C34_exit_exact : forall A ch txt, let ls := plines ch txt in
  pread A ch txt = Exn (SysExit 301) <->
  exists l5 sc, nth_error ls 5 = Some l5 /\ scaling_at A ls sc /\ nneg A sc = false /\
    Forall (fun piece => exists x, parse_float piece = Some x) (split_on sp l5).
Proof.
  intros A ch txt ls. rewrite pread_exit by discriminate. fold ls. rewrite from_list_301.
  assert (forall l, is_numbers l = true <-> Forall (fun piece => exists x, parse_float piece = Some x) (split_on sp l)) as N.
  { intros l. unfold is_numbers. rewrite forallb_forall, Forall_forall. split; intros H p Hp; specialize (H p Hp).
    - unfold is_number in H. destruct (parse_float p) eqn:E; [eauto|discriminate].
    - destruct H as [x E]. unfold is_number. rewrite E. reflexivity. }
  split.
  - intros (l0 & l5 & l1 & t & r & sc & H0 & H5 & H1 & S & P & G & I). exists l5, sc. split; auto. split; [exists l1, t, r; auto|]. split; auto. apply N. auto.
  - intros (l5 & sc & H5 & (l1 & t & r & H1 & S & P) & G & I). destruct (nth_error ls 0) as [l0|] eqn:H0.
    + exists l0, l5, l1, t, r, sc. rewrite N. auto 10.
    + destruct ls; [destruct (nth_error (@nil str) 1) eqn:K; discriminate|discriminate].
Qed.
Print Assumptions C34_exit_exact.
(** counts separated by single blanks are detected *)
Theorem C34_single_blanks_partial : forall A ch txt counts sc, let ls := plines ch txt in
  nth_error ls 5 = Some (join [sp] (map str_of_Z counts) ++ [nl]) -> counts <> [] -> scaling_at A ls sc -> nneg A sc = false ->
  pread A ch txt = Exn (SysExit 301).
Proof.
  intros A ch txt counts sc ls H5 NE SC NN. apply C34_exit_exact. eexists _, sc. split; [exact H5|]. split; auto. split; auto.
  assert (forall z, exists x, parse_float (str_of_Z z) = Some x) as PZ.
  { intros z. unfold parse_float. rewrite parse_dec_str_of_Z. cbn [option_map]. eauto. }
  assert (forall z, exists x, parse_float (str_of_Z z ++ [nl]) = Some x) as PN.
  { intros z. destruct (PZ z) as [x P]. exists x. rewrite <- P. unfold parse_float, parse_dec.
    assert (strip (str_of_Z z ++ [nl]) = strip (str_of_Z z)) as -> by (apply strip_app_blank; reflexivity). reflexivity. }
  clear -NE PZ PN. induction counts as [|z r IH]; [congruence|].
  assert (forall w s, nochar sp w = true -> split_on sp (w ++ sp :: s) = w :: split_on sp s) as SO.
  { clear. induction w as [|c w IH]; intros s N; cbn [app split_on]; [rewrite aeqb_refl; reflexivity|].
    cbn [nochar forallb] in N. apply andb_true_iff in N as [N1 N2]. apply negb_true_iff in N1. rewrite N1. rewrite IH; auto. }
  assert (forall w, nochar sp w = true -> split_on sp w = [w]) as SW.
  { clear. induction w as [|c w IH]; intros N; auto. cbn [split_on]. cbn [nochar forallb] in N. apply andb_true_iff in N as [N1 N2]. apply negb_true_iff in N1. rewrite N1, IH; auto. }
  assert (forall z, nochar sp (str_of_Z z) = true) as NS.
  { clear. intros z. pose proof (str_of_Z_token z) as T. apply is_token_nospace in T. revert T. generalize (str_of_Z z). induction s as [|c s IH]; intros T; auto.
    unfold nochar, nospace in *. cbn [forallb] in *. apply andb_true_iff in T as [T1 T2]. rewrite IH by auto. destruct (aeqb c sp) eqn:E; auto. apply aeqb_eq in E. subst. discriminate. }
  destruct r as [|z2 r].
  - cbn [map join]. rewrite SW; [constructor; auto|]. unfold nochar. rewrite forallb_app. fold (nochar sp (str_of_Z z)). rewrite NS. reflexivity.
  - cbn [map]. rewrite join_cons2. rewrite <- app_assoc. cbn [app]. change (str_of_Z z ++ sp :: join [sp] (str_of_Z z2 :: map str_of_Z r) ++ [nl]) with (str_of_Z z ++ sp :: (join [sp] (map str_of_Z (z2 :: r)) ++ [nl])).
    rewrite SO by auto. constructor; auto. apply IH. discriminate.
Qed.
Print Assumptions C34_single_blanks_partial.
(** a leading or doubled blank anywhere in the line defeats the detection *)
Theorem C34_extra_blank_refuted : forall A ch txt l5 a b, let ls := plines ch txt in
  nth_error ls 5 = Some l5 -> (l5 = sp :: b \/ l5 = a ++ sp :: sp :: b) -> pread A ch txt <> Exn (SysExit 301).
Proof.
  intros A ch txt l5 a b ls H5 HB K. apply C34_exit_exact in K as (l & sc & H & _ & _ & F). fold ls in H. rewrite H5 in H. inversion H. subst l. clear H.
  assert (In [] (split_on sp l5)) as I.
  { destruct HB as [-> | ->].
    - cbn [split_on]. rewrite aeqb_refl. left. reflexivity.
    - assert (In [] (tl (split_on sp (a ++ sp :: sp :: b)))) as T.
      { clear. induction a as [|c a IH].
        - cbn [app split_on]. rewrite !aeqb_refl. left. reflexivity.
        - cbn [app split_on]. destruct (split_on sp (a ++ sp :: sp :: b)) as [|w ws]; [destruct IH|]. destruct (aeqb c sp); cbn [tl] in *; [right|]; auto. }
      destruct (split_on sp (a ++ sp :: sp :: b)); [destruct T|right; exact T]. }
  rewrite Forall_forall in F. destruct (F _ I) as [x E]. discriminate.
Qed.
Print Assumptions C34_extra_blank_refuted.
Definition vasp4 (l : string) : str := unlines (map lit ["no species"; "1"; "1 0 0"; "0 1 0"; "0 0 1"; l; "Direct"; "0 0 0"; "0.5 0.5 0.5"]%string).
Definition code (r : res (pentries exact)) : option exn := match r with Ok _ => None | Exn e => Some e end.
Example C34_case : code (pread exact FromFile (vasp4 "1 1")) = Some (SysExit 301) /\ code (pread exact FromFile (vasp4 " 1 1")) = Some ValueError.
Proof. split; vm_compute; reflexivity. Qed.

(** ** C35: edits of single sites *)
(** [n] designates position [i] (negative numbers count from the end, down to minus the
    length): exactly that site is replaced or removed and nothing else changes; a number
    beyond the end exits with 304, one before the beginning raises IndexError. *)
Theorem C35_modify_site : forall A es l entry s n,
  pholds es "sites" (PSites A l) -> In entry (map lit ["comment"; "unitcell"; "sites"]%string) ->
  (forall i, designates n (length l) i -> exists es', modify A es entry (PSite A s) (Some (IInt n)) = Ok es' /\
     pholds es' "sites" (PSites A (firstn i l ++ SSite A s :: skipn (S i) l)) /\ forall k, k <> lit "sites" -> dget k es' = dget k es) /\
  ((Z.of_nat (length l) <= n)%Z -> modify A es entry (PSite A s) (Some (IInt n)) = Exn (SysExit 304)) /\
  ((n < - Z.of_nat (length l))%Z -> modify A es entry (PSite A s) (Some (IInt n)) = Exn IndexError).
Proof.
  intros A es l entry s n H HE.
  assert (check_allowed entry = Ok tt) as CA by (repeat (destruct HE as [<-|HE]; [vm_compute; reflexivity|]); destruct HE).
  unfold modify. rewrite CA. cbn [bind check_site check_site_number]. unfold pkey, pholds in *. rewrite H. cbn [of_option bind].
  split; [|split].
  - intros i D. assert ((Z.of_nat (length l) - 1 <? n)%Z = false) as -> by (apply Z.ltb_ge; destruct D; lia). cbn [bind].
    rewrite (proj2 (list_index_spec l n i) D). eexists. split; [reflexivity|]. split.
    + rewrite dget_dset_same. rewrite list_set_split by (destruct D; auto). reflexivity.
    + intros k N. apply dget_dset_other. auto.
  - intros L. assert ((Z.of_nat (length l) - 1 <? n)%Z = true) as -> by (apply Z.ltb_lt; lia). reflexivity.
  - intros L. assert ((Z.of_nat (length l) - 1 <? n)%Z = false) as -> by (apply Z.ltb_ge; lia). cbn [bind].
    destruct (list_index l n) as [i|] eqn:E; auto. apply list_index_spec in E. destruct E as [E1 E2]. lia.
Qed.
Print Assumptions C35_modify_site.
Theorem C35_delete_site : forall A es l n, pholds es "sites" (PSites A l) ->
  (forall i, designates n (length l) i -> exists es', delete_site A es (IInt n) = Ok es' /\
     pholds es' "sites" (PSites A (firstn i l ++ skipn (S i) l)) /\ forall k, k <> lit "sites" -> dget k es' = dget k es) /\
  ((Z.of_nat (length l) <= n)%Z -> delete_site A es (IInt n) = Exn (SysExit 304)) /\
  ((n < - Z.of_nat (length l))%Z -> delete_site A es (IInt n) = Exn IndexError).
Proof.
  intros A es l n H.
  unfold delete_site, check_sites, arg_or. cbn [check_site_number]. unfold pkey, pholds in *. rewrite H. cbn [of_option bind].
  split; [|split].
  - intros i D. assert ((Z.of_nat (length l) - 1 <? n)%Z = false) as -> by (apply Z.ltb_ge; destruct D; lia). cbn [bind].
    rewrite (proj2 (list_index_spec l n i) D). eexists. split; [reflexivity|]. split.
    + rewrite dget_dset_same. rewrite list_del_split by (destruct D; auto). reflexivity.
    + intros k N. apply dget_dset_other. auto.
  - intros L. assert ((Z.of_nat (length l) - 1 <? n)%Z = true) as -> by (apply Z.ltb_lt; lia). reflexivity.
  - intros L. assert ((Z.of_nat (length l) - 1 <? n)%Z = false) as -> by (apply Z.ltb_ge; lia). cbn [bind].
    destruct (list_index l n) as [i|] eqn:E; auto. apply list_index_spec in E. destruct E as [E1 E2]. lia.
Qed.
Print Assumptions C35_delete_site.
Example C35_case : exists l, pholds site_case "sites" (PSites exact l) /\ designates (-1) (length l) 0 /\
  exists es', delete_site exact site_case (IInt (-1)) = Ok es' /\ pholds es' "sites" (PSites exact []).
Proof.
  eexists. split; [reflexivity|]. split; [split; [cbn; lia|right; reflexivity]|]. eexists. split; reflexivity.
Qed.
