(** Property C94, POSCAR part: direct coordinates keep their decimal digits. *)
From Coq Require Import Ascii String List NArith ZArith Bool Lia Arith.
From Verif Require Import PyBase PyNum PyStrLemmas PyNumLemmas PyFmtLemmas PyFmtDigits PyLines UtilsModel KpointsSpec PoscarModel ArithModel PoscarSpec PoscarRead PoscarRoundTrip PoscarTheorems Props_Poscar Props_PoscarWrite.
Import ListNotations.
Local Open Scope list_scope.
Local Open Scope bool_scope.
Local Open Scope nat_scope.

(** Specification: [keeps_to p t t'] in PyFmtDigits. *)

(** ** Proofs *)
Lemma species_in spec atoms k : forall st l st', species_run spec atoms k st = Ok (l, st') -> forall s, In s l -> In s spec.
Proof.
  induction k as [|k IH]; intros st l st' H s Hs; cbn [species_run] in H.
  - injection H as <- _. destruct Hs.
  - apply bind_ok in H as [[s1 st1] [E H]]. apply bind_ok in H as [[l2 st2] [E2 H]]. injection H as <- _.
    destruct Hs as [<-|Hs]; [|eapply IH; eauto]. unfold next_specie in E. apply bind_ok in E as [a [_ E]].
    apply bind_ok in E as [s2 [E3 E]]. injection E as -> _. apply py_nth_ok in E3. eapply nth_error_In; eauto.
Qed.
Lemma map_SSite_inj A (l l' : list (site A)) : map (SSite A) l = map (SSite A) l' -> l = l'.
Proof. revert l'. induction l as [|x l IH]; intros [|y l'] H; try discriminate; auto. cbn [map] in H. injection H as <- H. f_equal. auto. Qed.
Lemma read_tokens A ch txt es ss : pread A ch txt = Ok es -> pholds es "sites" (PSites A (map (SSite A) ss)) -> Forall (fun s => is_token (si_specie A s) = true) ss.
Proof.
  intros R HS.
  destruct (pread_reading A _ _ _ R) as (l0 & l1 & l2 & l3 & l4 & sc & r2 & r3 & r4 & spec & atoms & sel & dir & first & raw & hasv & vd & pred & vel & pre & ss' & RD & B & HS' & _).
  destruct (rd_spec _ _ _ _ _ _ _ _ _ _ _ _ _ _ _ _ _ _ _ _ _ _ _ RD) as (l5 & E5 & _ & S5).
  destruct (rd_atoms _ _ _ _ _ _ _ _ _ _ _ _ _ _ _ _ _ _ _ _ _ _ _ RD) as (l6 & E6 & S6).
  destruct (read_species A ch txt es spec atoms R) as (ss2 & HS2 & _ & sps & st' & SR & M).
  { exists l5. split; auto. }
  { exists l6. split; auto. }
  assert (ss2 = ss) as ->. { unfold pholds in HS, HS2. rewrite HS in HS2. injection HS2 as E. symmetry. apply (map_SSite_inj A). exact E. }
  assert (Forall (fun s => is_token s = true) (map (si_specie A) ss)) as F.
  { rewrite M. apply Forall_forall. intros s Hs. apply in_map_iff in Hs as [u [<- Hu]]. rewrite is_token_lower.
    apply (species_in _ _ _ _ _ _ SR) in Hu. pose proof (split_ws_tokens l5) as T. rewrite forallb_forall in T. apply T. rewrite S5. exact Hu. }
  apply Forall_forall. intros s Hs. rewrite Forall_forall in F. apply F. apply in_map. exact Hs.
Qed.

(** ** C94 *)
(** Reading a direct POSCAR and writing it back in direct coordinates and in the same order:
    the coordinates of each site show the numbers of its line. *)
Theorem C94_poscar_digits : forall d i ch txt es selective first prec out, let A := binary64 d i in
  pread A ch txt = Ok es -> layout (plines ch txt) selective true first -> prec <= 300 -> get_string A prec true true es = Ok out ->
  exists ss lines selective' first', pholds es "sites" (PSites A (map (SSite A) ss)) /\ out = unlines lines /\ layout lines selective' true first' /\
    forall i, i < length ss -> exists l l', nth_error (plines ch txt) (first + i) = Some l /\ nth_error lines (first' + i) = Some l' /\
      forall j t, j < 3 -> nth_error (split_ws l) j = Some t -> exists t', nth_error (split_ws l') j = Some t' /\ keeps_to prec t t'.
Proof.
  intros d i0 ch txt es selective first prec out A R LY HP W.
  destruct (C28_direct_unchanged A ch txt es selective first) as (ss & HS & P); auto; [left; exists d, i0; reflexivity|].
  destruct (C30_conserved A prec true es out ss) as (lines & cell & gs & sel & first' & E & _ & _ & _ & _ & _ & _ & LY' & _ & P'); auto; [left; exists d, i0; reflexivity|eapply read_tokens; eauto|].
  exists ss, lines, sel, first'. split; [auto|]. split; [auto|]. split; [auto|]. intros i Hi.
  destruct (nth_error ss i) as [s|] eqn:Es; [|apply nth_error_None in Es; lia].
  destruct (P i s Es) as (l & x & y & z & El & (a & b & c & r & Sl & Pa & Pb & Pc) & Ep).
  destruct (P' i s Es) as (l' & El' & x' & y' & z' & r' & Ev & Sl').
  change (ws_position A (view A s)) with (si_position A s) in Ev. rewrite Ep in Ev. injection Ev as <- <- <- <-.
  exists l, l'. split; [auto|]. split; [auto|]. rewrite Sl, Sl'. intros j t Hj Ht.
  destruct j as [|[|[|j]]]; [| | |lia]; cbn [nth_error map app] in *; eexists; (split; [reflexivity|]); injection Ht as <-.
  - exact (keeps_fixed prec a x HP Pa).
  - exact (keeps_fixed prec b y HP Pb).
  - exact (keeps_fixed prec c z HP Pc).
Qed.
Print Assumptions C94_poscar_digits.

(** a case: reading and writing back (the matrix routines are not used) *)
Definition digits_text : str := unlines (map lit
  ["c"; "1.0"; "3 0 0"; "0 3 0"; "0 0 3"; "Si O"; "1 1"; "Selective"; "Direct"; "0.1 2e-1 .3 T T F"; "0.250 0 -0.7 T T T"]%string).
Definition digits_arith : arith := binary64 (fun v _ => v) (fun _ => None).
Definition digits_out : str := match pread digits_arith FromFile digits_text with
  | Ok es => match get_string digits_arith 6 true true es with Ok out => out | Exn _ => [] end
  | Exn _ => [] end.
Example C94_poscar_case : layout (plines FromFile digits_text) true true 9 /\
  map split_ws (skipn 9 (splitlines digits_out)) =
  map (map lit) [["0.100000"; "0.200000"; "0.300000"; "T"; "T"; "F"]; ["0.250000"; "0.000000"; "-0.700000"; "T"; "T"; "T"]]%string.
Proof. split; [apply read_mode_ok; vm_compute; reflexivity|vm_compute; reflexivity]. Qed.
