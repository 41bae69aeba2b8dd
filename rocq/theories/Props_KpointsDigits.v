(** Property C94, KPOINTS part: the coordinates and weights of an explicit list keep their
    decimal digits. *)
From Coq Require Import Ascii String List NArith ZArith Bool Lia Arith.
From Verif Require Import PyBase PyNum PyStrLemmas PyNumLemmas PyFmtLemmas PyFmtDigits PyLines UtilsModel KpointsModel KpointsSpec KpointsProofs KpointsRoundTrip KpointsEdits KpointsCodes.
From Verif Require Import Props_Kpoints.
Import ListNotations.
Local Open Scope list_scope.
Local Open Scope bool_scope.
Local Open Scope nat_scope.

(** Specification: [keeps_to p t t'] in PyFmtDigits. *)
Lemma Forall2_nth_l {T U} (R : T -> U -> Prop) l l' i x : Forall2 R l l' -> nth_error l' i = Some x -> exists y, nth_error l i = Some y /\ R y x.
Proof.
  intros F. revert i. induction F as [|a b l l' H F IH]; intros [|i] E; cbn in *; try discriminate.
  - injection E as <-. eauto.
  - apply IH. exact E.
Qed.
Lemma nth_firstn {T} (l : list T) n i x : nth_error (firstn n l) i = Some x -> nth_error l i = Some x.
Proof. revert n i. induction l as [|a l IH]; intros [|n] [|i] E; cbn in *; try discriminate; auto. eapply IH; eauto. Qed.
Lemma nth_skipn {T} (l : list T) n i : nth_error (skipn n l) i = nth_error l (n + i).
Proof. revert n. induction l as [|a l IH]; intros [|n]; cbn; auto. destruct i; auto. Qed.

(** ** C94 *)
(** each k-point line of the output shows the numbers of the same line of the input *)
Theorem C94_kpoints_digits : forall ch txt es prec out n, kread ch txt = Ok es -> holds es "mode" KExplicit ->
  holds es "num_kpoints" (KInt n) -> (forall co, holds es "comment" co -> comment_ok co) -> prec <= 300 -> get_string prec es = Ok out ->
  forall i, i < Z.to_nat n -> exists l l', nth_error (klines ch txt) (3 + i) = Some l /\ nth_error (splitlines out) (3 + i) = Some l' /\
    length (split_ws l') = 4 /\
    forall j t, j < 4 -> nth_error (split_ws l) j = Some t -> exists t', nth_error (split_ws l') j = Some t' /\ keeps_to prec t t'.
Proof.
  intros ch txt es prec out n R M N PC HP W i Hi.
  destruct (kread_ok _ _ _ R) as [FL V].
  destruct (accepted_sound _ _ FL V) as (n' & c & _ & _ & N' & [[_ [M' _]]|[(_ & _ & _ & _ & _ & pts & te & HPt & HT & L & F & _)|[_ [_ M']]]]); [exfalso; unfold holds in M, M'; rewrite M in M'; discriminate M'| |exfalso; unfold holds in M, M'; rewrite M in M'; discriminate M'].
  unfold holds in N, N'. rewrite N in N'. injection N' as <-.
  destruct (write_explicit_inv prec es out W M) as (co & ps & nz & te2 & vo & vol & C & P' & _ & T & Vo & OC & OT & TH & TV & ->).
  unfold holds in HPt, P'. rewrite HPt in P'. injection P' as ->. rewrite map_length in L.
  destruct (nth_error ps i) as [p|] eqn:Ep; [|apply nth_error_None in Ep; lia].
  pose proof (map_nth_error KPt i ps Ep) as Em. destruct (Forall2_nth_l _ _ _ _ _ F Em) as (l & El & x & y & z & w & PL & E). injection E as ->.
  apply nth_firstn in El. rewrite nth_skipn in El.
  exists l, (pline prec (Kpoint [x; y; z] w true)). split; [exact El|].
  rewrite splitlines_unlines by (apply elines_nobreak; apply PC; exact C). split.
  { unfold elines. cbn [plus nth_error]. rewrite nth_error_app1 by (rewrite map_length; apply nth_error_Some; congruence). apply map_nth_error. exact Ep. }
  rewrite pline_split by (unfold three; cbn; lia). cbn [kp_point firstn app map length]. split; [reflexivity|].
  destruct PL as (a & b & d & r & -> & Pa & Pb & Pd & Pr).
  intros j t Hj Ht. destruct j as [|[|[|[|j]]]]; [| | | |lia]; cbn [nth_error] in *.
  - eexists. split; [reflexivity|]. injection Ht as <-. apply keeps_fixed; auto.
  - eexists. split; [reflexivity|]. injection Ht as <-. apply keeps_fixed; auto.
  - eexists. split; [reflexivity|]. injection Ht as <-. apply keeps_fixed; auto.
  - destruct r as [|u r]; [discriminate|]. injection Ht as <-. destruct Pr as (v & Pv & ->). eexists. split; [reflexivity|]. apply keeps_fixed; auto.
Qed.
Print Assumptions C94_kpoints_digits.
Example C94_kpoints_case : exists out, get_string 9 explicit_obj = Ok out /\ holds explicit_obj "mode" KExplicit /\ holds explicit_obj "num_kpoints" (KInt 3) /\
  keeps_to 9 (lit "0.1") (lit "0.100000000") /\ ~ keeps_to 9 (lit "0.1") (lit "0.100000001") /\ keeps_to 9 (lit "-1e-3") (lit "-0.001000000").
Proof.
  eexists. split; [vm_compute; reflexivity|]. split; [reflexivity|]. split; [vm_compute; reflexivity|]. split; [|split].
  - intros neg m e n D SD Hn. vm_compute in D. injection D as <- <- <-. destruct SD as [k [[-> E]|[E1 E2]]]; [|exfalso; lia]. assert (k = 8) as -> by lia. reflexivity.
  - intros K. specialize (K false 1%N (-1)%Z 100000000%N eq_refl). assert (same_decimal 1 (-1) 100000000 (-9)) as SD by (exists 8; left; split; [reflexivity|lia]).
    specialize (K SD ltac:(lia)). vm_compute in K. discriminate K.
  - intros neg m e n D SD Hn. vm_compute in D. injection D as <- <- <-. destruct SD as [k [[-> E]|[E1 E2]]]; [|exfalso; lia]. assert (k = 6) as -> by lia. reflexivity.
Qed.
