(** C100: exactly which POTCARs are accepted, for headers made of fields. *)
From Coq Require Import Ascii String List NArith ZArith Bool Lia.
From Verif Require Import PyBase PyStrLemmas PyNum UtilsModel LineModel OutcarModel ChgcarModel ChgcarSpec PotcarModel PotcarSpec PotcarProofs DoscarProofs Props_Outcar StreamConfig Props_Potcar.
Import ListNotations.
Local Open Scope list_scope.

(** ** Specification *)
(** one of the characters [cs], if there is one, is taken from [l], leaving [r] *)
Definition one_of (cs : list ascii) (l tok r : str) : Prop :=
  (exists c, In c cs /\ tok = [c] /\ l = c :: r) \/ (tok = [] /\ r = l /\ match l with [] => True | c :: _ => ~ In c cs end).
(** all leading digits are taken *)
Definition all_digits (l tok r : str) : Prop := l = tok ++ r /\ digits tok /\ no_digit_first r.
(** what is taken for the number at the beginning of a value: minus sign, digits, point,
    digits, letter e, minus sign, digits - each if it is there *)
Definition taken (v tok : str) : Prop :=
  exists a b c d e f g r1 r2 r3 r4 r5 r6 r7, tok = a ++ b ++ c ++ d ++ e ++ f ++ g /\
    one_of ["-"%char] v a r1 /\ all_digits r1 b r2 /\ one_of ["."%char] r2 c r3 /\ all_digits r3 d r4 /\
    one_of ["e"; "E"]%char r4 e r5 /\ one_of ["-"%char] r5 f r6 /\ all_digits r6 g r7.
(** a field that can be read *)
Definition converts (ty : ptype) (v : str) : Prop :=
  match ty with
  | PText => True
  | PFlag => exists b, flag_value v b
  | PInt => exists z, int_value v z
  | PFloat => exists tok x, taken v tok /\ parse_float tok = Some x
  | PFloats => exists l, word_numbers (split_ws v) l
  end.

(** ** Proofs *)
Lemma opt_one_of f cs l : (forall c, f c = true <-> In c cs) -> one_of cs l (fst (opt_char f l)) (snd (opt_char f l)).
Proof.
  intros H. destruct l as [|c l]; cbn [opt_char fst snd]; [right; auto|]. pose proof (H c) as HC. destruct (f c); cbn [fst snd]; [left; exists c; split; [apply HC; auto|auto]|].
  right. split; auto. split; auto. intros X. apply HC in X. discriminate.
Qed.
Lemma one_of_fun cs l t r t' r' : one_of cs l t r -> one_of cs l t' r' -> t = t' /\ r = r'.
Proof.
  intros [(c & C & -> & ->)|(-> & -> & N)] [(c' & C' & -> & E)|(-> & -> & N')].
  - injection E as -> ->. auto.
  - contradiction.
  - subst l. contradiction.
  - auto.
Qed.
Lemma span_all_digits l : all_digits l (fst (span is_digit l)) (snd (span is_digit l)).
Proof. destruct (digits_span l) as (ds & rest & E & -> & D & N). rewrite E. cbn [fst snd]. repeat split; auto. Qed.
Lemma all_digits_fun l t r t' r' : all_digits l t r -> all_digits l t' r' -> t = t' /\ r = r'.
Proof.
  intros (-> & D & N) (E & D' & N'). assert (span is_digit (t ++ r) = (t, r)) as S1 by (apply span_all; auto). rewrite E in S1. rewrite span_all in S1 by auto. injection S1 as -> ->. auto.
Qed.
Lemma prefix_taken v : taken v (number_prefix v).
Proof.
  unfold number_prefix.
  pose proof (opt_one_of (aeqb "-") ["-"%char] v ltac:(intros c; rewrite aeqb_eq; cbn; intuition)) as H1. destruct (opt_char (aeqb "-") v) as [a r1]. cbn [fst snd] in H1.
  pose proof (span_all_digits r1) as H2. destruct (span is_digit r1) as [b r2]. cbn [fst snd] in H2.
  pose proof (opt_one_of (aeqb ".") ["."%char] r2 ltac:(intros c; rewrite aeqb_eq; cbn; intuition)) as H3. destruct (opt_char (aeqb ".") r2) as [c r3]. cbn [fst snd] in H3.
  pose proof (span_all_digits r3) as H4. destruct (span is_digit r3) as [d r4]. cbn [fst snd] in H4.
  pose proof (opt_one_of (fun x => aeqb x "e" || aeqb x "E")%bool ["e"; "E"]%char r4 ltac:(intros x; rewrite orb_true_iff, !aeqb_eq; cbn; intuition)) as H5. destruct (opt_char _ r4) as [e r5]. cbn [fst snd] in H5.
  pose proof (opt_one_of (aeqb "-") ["-"%char] r5 ltac:(intros x; rewrite aeqb_eq; cbn; intuition)) as H6. destruct (opt_char (aeqb "-") r5) as [f r6]. cbn [fst snd] in H6.
  exists a, b, c, d, e, f, (fst (span is_digit r6)), r1, r2, r3, r4, r5, r6, (snd (span is_digit r6)). split; auto. repeat (split; [assumption|]). apply span_all_digits.
Qed.
Lemma taken_fun v t t' : taken v t -> taken v t' -> t = t'.
Proof.
  intros (a & b & c & d & e & f & g & r1 & r2 & r3 & r4 & r5 & r6 & r7 & -> & H1 & H2 & H3 & H4 & H5 & H6 & H7) (a' & b' & c' & d' & e' & f' & g' & q1 & q2 & q3 & q4 & q5 & q6 & q7 & -> & G1 & G2 & G3 & G4 & G5 & G6 & G7).
  destruct (one_of_fun _ _ _ _ _ _ H1 G1) as [<- <-]. destruct (all_digits_fun _ _ _ _ _ H2 G2) as [<- <-]. destruct (one_of_fun _ _ _ _ _ _ H3 G3) as [<- <-]. destruct (all_digits_fun _ _ _ _ _ H4 G4) as [<- <-].
  destruct (one_of_fun _ _ _ _ _ _ H5 G5) as [<- <-]. destruct (one_of_fun _ _ _ _ _ _ H6 G6) as [<- <-]. destruct (all_digits_fun _ _ _ _ _ H7 G7) as [<- _]. auto.
Qed.
Lemma converts_ok ty v : (exists c r, v = c :: r /\ is_space c = false) -> ((exists x, convert (kind_for ty) v = Ok x) <-> converts ty v).
Proof.
  intros NE. destruct ty; cbn [converts].
  - cbn. split; eauto.
  - split; [intros [x H]; destruct (convert_holds PFlag v x NE H) as (b & _ & B); eauto|intros H; exact (readable_converts PFlag v NE H)].
  - split; [intros [x H]; destruct (convert_holds PInt v x NE H) as (z & _ & Z1); eauto|intros H; exact (readable_converts PInt v NE H)].
  - cbn [kind_for convert]. split.
    + intros [x H]. apply bind_ok in H as [y [Y _]]. exists (number_prefix v), y. split; [apply prefix_taken|]. unfold OutcarModel.to_float in Y. destruct (parse_float (number_prefix v)); [|discriminate]. cbn in Y. apply Ok_inj' in Y. congruence.
    + intros (tok & x & T & P). rewrite (taken_fun _ _ _ (prefix_taken v) T). unfold OutcarModel.to_float. rewrite P. cbn. eauto.
  - split; [intros [x H]; destruct (convert_holds PFloats v x NE H) as (l & _ & L); eauto|intros H; exact (readable_converts PFloats v NE H)].
Qed.
Lemma type_kind k : kind_for (type_for k) = k. Proof. destruct k; auto. Qed.

(** A POTCAR whose first header is made of the fields [kvs] is read if and only if it has
    a title and every field of a documented parameter can be converted *)
Theorem C100_accepted path handler t mid kvs : source_text path handler t -> psctr t mid -> fields mid kvs ->
  ((exists p, potcar_init path handler = Ok p) <->
   (exists v, In (lit "TITEL", v) kvs) /\ forall key ty v, documented key ty -> In (lit key, v) kvs -> converts ty v).
Proof.
  intros ST PS FD. assert (forall k v, In (k, v) kvs -> exists c r, v = c :: r /\ is_space c = false) as NE by (intros k v I; apply (fields_values _ _ _ _ FD I)).
  split.
  - intros [p H]. destruct (metadata_read path handler p t mid kvs H ST PS FD) as (titel & F & T & _). split.
    + destruct (last_or_none kvs (lit "TITEL")) as [[v L]|N]; [exists v; apply last_value_In; auto|]. rewrite (store_absent _ _ _ _ F N) in T. discriminate.
    + intros key ty v D I. apply converts_ok; [eapply NE; eauto|]. apply (store_ok_all _ _ _ _ _ _ F I). apply documented_kind. auto.
  - intros [[v V] R]. rewrite (pot_source _ _ _ ST). unfold generate_metadata. rewrite (psctr_block_ok _ _ PS). cbn [bind]. rewrite (block_entries _ _ FD).
    destruct (store_all kvs []) as [d D]. { intros k w kd I K. pose proof (kind_doc _ _ K) as (key & -> & DK). rewrite <- (type_kind kd). apply converts_ok; [eapply NE; eauto|]. eapply R; eauto. }
    rewrite D. cbn [bind]. destruct (last_or_none kvs (lit "TITEL")) as [[v' L]|N]; [|destruct (N _ V)]. rewrite (title_text _ _ _ D L). eauto.
Qed.
(** what is taken for a number is unambiguous, and always defined *)
Theorem C100_taken v : exists tok, taken v tok /\ forall tok', taken v tok' -> tok' = tok.
Proof. exists (number_prefix v). split; [apply prefix_taken|]. intros tok' T. apply (taken_fun v); auto. apply prefix_taken. Qed.

(** ** Examples *)
Example C100_case : source_text None (Some sample_potcar) sample_potcar /\ psctr sample_potcar sample_mid /\ fields sample_mid sample_kvs /\
  forall key ty v, documented key ty -> In (lit key, v) sample_kvs -> converts ty v.
Proof.
  split; [left; auto|]. split; [exact sample_psctr|]. split; [exact sample_fields|]. intros key ty v D I.
  assert (exists c r, v = c :: r /\ is_space c = false) as NE by apply (fields_values _ _ _ _ sample_fields I). apply converts_ok; auto. apply readable_converts; auto. apply (sample_readable key); auto.
Qed.
Lemma float_value_case v : converts PFloat v <-> is_some (parse_float (number_prefix v)) = true.
Proof.
  cbn [converts]. split.
  - intros (tok & x & T & P). rewrite (taken_fun _ _ _ (prefix_taken v) T), P. auto.
  - intros H. destruct (parse_float (number_prefix v)) as [x|] eqn:P; [|discriminate]. exists (number_prefix v), x. split; [apply prefix_taken|auto].
Qed.
(** a unit set apart, a Fortran exponent and a second point are passed over; a plus sign, a
    word, a second minus sign and a unit that begins like an exponent are fatal *)
Example C100_values : converts PFloat (lit "1.5 eV") /\ converts PFloat (lit "1.5D2") /\ converts PFloat (lit "1.5.2") /\ converts PFloat (lit "-.5E-3x").
Proof. repeat split; apply float_value_case; vm_compute; reflexivity. Qed.
Example C100_values_bad : ~ converts PFloat (lit "1.5E+2") /\ ~ converts PFloat (lit "abc") /\ ~ converts PFloat (lit "1.5-2") /\ ~ converts PFloat (lit "+1.5") /\ ~ converts PFloat (lit "1.5eV").
Proof. repeat split; intros H; apply float_value_case in H; vm_compute in H; discriminate. Qed.
