(** Properties of the POTCAR reader (C53, C67). *)
From Coq Require Import Ascii String List NArith ZArith Bool Lia.
From Verif Require Import PyBase PyStrLemmas PyNum UtilsModel LineModel OutcarModel OutcarMatch KpointsCodes DoscarProofs Props_Outcar StreamConfig ChgcarModel ChgcarSpec ChgcarProofs PotcarModel PotcarSpec PotcarProofs.
Import ListNotations.
Local Open Scope list_scope.

(** the value [x] of a parameter of type [ty] whose field is [v] *)
Definition holds (ty : ptype) (v : str) (x : pval) : Prop :=
  match ty with
  | PText => x = VText (strip v)
  | PFlag => exists b, x = VFlag b /\ flag_value v b
  | PInt => exists z, x = VInt z /\ int_value v z
  | PFloat => exists y, x = VFloat y /\ (exists tok rest, v = tok ++ rest /\ parse_float tok = Some y) /\ forall y', float_value v y' -> y = y'
  | PFloats => exists l, x = VFloats l /\ word_numbers (split_ws v) l
  end.
(** a field that can be read *)
Definition readable (ty : ptype) (v : str) : Prop :=
  match ty with
  | PText => True
  | PFlag => exists b, flag_value v b
  | PInt => exists z, int_value v z
  | PFloat => exists tok rest, v = tok ++ rest /\ float_text tok /\ stops rest
  | PFloats => exists l, word_numbers (split_ws v) l
  end.
Definition kind_for (ty : ptype) : kind := match ty with PText => KText | PFlag => KFlag | PInt => KInt | PFloat => KFloat | PFloats => KFloats end.
Definition type_for (k : kind) : ptype := match k with KText => PText | KFlag => PFlag | KInt => PInt | KFloat => PFloat | KFloats => PFloats end.
Lemma documented_kind key ty : documented key ty -> kind_of (lit key) = Some (kind_for ty).
Proof. destruct ty; cbn [documented]; intros H; try (subst; reflexivity); cbn [In] in H; repeat (destruct H as [<-|H]; [reflexivity|]); destruct H. Qed.
Lemma kind_doc key k : kind_of key = Some k -> exists s, key = lit s /\ documented s (type_for k).
Proof. intros H. pose proof (kind_documented key) as K. rewrite H in K. destruct k; auto. Qed.
Lemma documented_upper key ty : documented key ty -> upper (lit key) = lit key.
Proof. destruct ty; cbn [documented]; intros H; try (subst; reflexivity); cbn [In] in H; repeat (destruct H as [<-|H]; [reflexivity|]); destruct H. Qed.
Lemma number_prefix_prefix v : exists rest, v = number_prefix v ++ rest.
Proof.
  assert (forall f l a b, opt_char f l = (a, b) -> l = a ++ b) as O. { intros f [|c l] a b; cbn; [injection 1 as <- <-; auto|]. destruct (f c); injection 1 as <- <-; auto. }
  unfold number_prefix. destruct (opt_char (aeqb "-") v) as [a r1] eqn:E1. apply O in E1. destruct (span_split is_digit r1) as (b & r2 & -> & E2 & _). destruct (opt_char (aeqb ".") r2) as [c r3] eqn:E3. apply O in E3. destruct (span_split is_digit r3) as (d & r4 & -> & E4 & _). destruct (opt_char _ r4) as [e r5] eqn:E5. apply O in E5. destruct (opt_char _ r5) as [f r6] eqn:E6. apply O in E6. destruct (span_split is_digit r6) as (g & r7 & -> & E7 & _).
  exists r7. cbn [fst]. subst. repeat rewrite <- app_assoc. auto.
Qed.
Lemma convert_holds ty v x : (exists c r, v = c :: r /\ is_space c = false) -> convert (kind_for ty) v = Ok x -> holds ty v x.
Proof.
  intros NE. destruct ty; cbn [kind_for convert holds]; intros H.
  - apply Ok_inj' in H. auto.
  - apply bind_ok in H as [b [B H]]. apply Ok_inj' in H. exists b. split; auto. apply flag_ok. auto.
  - apply bind_ok in H as [z [Z1 H]]. apply Ok_inj' in H. exists z. split; auto. apply integer_ok. auto.
  - apply bind_ok in H as [y [Y H]]. apply Ok_inj' in H. exists y. split; auto. split.
    + destruct (number_prefix_prefix v) as [rest R]. exists (number_prefix v), rest. split; auto. unfold OutcarModel.to_float in Y. destruct (parse_float (number_prefix v)); [|discriminate]. cbn in Y. apply Ok_inj' in Y. subst. auto.
    + intros y' F. apply float_value_ok in F. rewrite F in Y. apply Ok_inj' in Y. auto.
  - apply bind_ok in H as [l [L H]]. apply Ok_inj' in H. exists l. split; auto. apply word_numbers_ok. unfold blank_split in L. destruct (split_ws v) eqn:E; auto. exfalso. destruct NE as (c & r & -> & C). revert E. cbn [split_ws]. rewrite C. destruct r as [|c' r]; [discriminate|]. destruct (is_space c'); [discriminate|]. destruct (split_ws (c' :: r)); discriminate.
Qed.
Lemma readable_converts ty v : (exists c r, v = c :: r /\ is_space c = false) -> readable ty v -> exists x, convert (kind_for ty) v = Ok x.
Proof.
  intros NE. destruct ty; cbn [kind_for convert readable].
  - eauto.
  - intros [b B]. apply flag_ok in B. rewrite B. cbn. eauto.
  - intros [z Z1]. apply integer_ok in Z1. rewrite Z1. cbn. eauto.
  - intros (tok & rest & -> & F & S1). destruct (float_text_reads _ F) as [x X]. assert (float_value (tok ++ rest) x) as FV by (exists tok, rest; auto). apply float_value_ok in FV. rewrite FV. cbn. eauto.
  - intros [l L]. apply word_numbers_ok in L. unfold blank_split. destruct (split_ws v) eqn:E; [|rewrite L; cbn; eauto]. exfalso. destruct NE as (c & r & -> & C). revert E. cbn [split_ws]. rewrite C. destruct r as [|c' r]; [discriminate|]. destruct (is_space c'); [discriminate|]. destruct (split_ws (c' :: r)); discriminate.
Qed.
Lemma fields_values mid kvs k v : fields mid kvs -> In (k, v) kvs -> is_value v.
Proof. induction 1 as [s N|s key mid post v0 rest kvs N E K M P PN V MV R F IH]; [intros []|]. intros [X|X]; [injection X as <- <-; auto|auto]. Qed.
Lemma last_value_In kvs k v : last_value kvs k v -> In (k, v) kvs.
Proof. intros (b & a & -> & _). apply in_or_app. right. cbn. auto. Qed.

Lemma pot_text path handler p : potcar_init path handler = Ok p <-> exists t, source_text path handler t /\ generate_metadata t = Ok p.
Proof.
  unfold potcar_init, source_text. split.
  - destruct (negb (is_some path) && negb (is_some handler))%bool; [discriminate|]. intros H. apply bind_ok in H as [t [H1 H2]]. exists t. split; auto. unfold read_text in H1. destruct handler as [h|]; [apply Ok_inj' in H1; subst; auto|]. destruct path as [[u|]|]; try discriminate. apply Ok_inj' in H1. eauto.
  - intros (t & [->|(-> & u & -> & ->)] & F); [destruct path; cbn; auto|cbn; auto].
Qed.
Lemma pot_source path handler t : source_text path handler t -> potcar_init path handler = generate_metadata t.
Proof. unfold potcar_init. intros [->|(-> & u & -> & ->)]; [destruct path; cbn; auto|cbn; auto]. Qed.
(** what a successful reading gives *)
Lemma generate_ok t p mid : generate_metadata t = Ok p -> psctr t mid -> exists titel, foldM store (entries 0 (psctr_start ++ mid ++ psctr_end)) [] = Ok (pt_metadata p) /\ dget (lit "TITEL") (pt_metadata p) = Some (VText titel) /\
  pt_symbol p = match nth_error (split_on sp titel) 1 with Some w => strip w | None => strip titel end /\ pt_element p = fst (split_first "_" (pt_symbol p)).
Proof.
  intros H P. unfold generate_metadata in H. rewrite (psctr_block_ok _ _ P) in H. cbn [bind] in H. apply bind_ok in H as [d [D H]]. destruct (dget (lit "TITEL") d) as [[titel| | | |]|] eqn:T; try discriminate. apply Ok_inj' in H. subst p. exists titel. auto.
Qed.
Section Read.
Variables (path : source_path) (handler : source_handler) (p : potcar) (t mid : str) (kvs : list (str * str)).
Hypotheses (RD : potcar_init path handler = Ok p) (ST : source_text path handler t) (PS : psctr t mid) (FD : fields mid kvs).
Lemma metadata_read : exists titel, foldM store kvs [] = Ok (pt_metadata p) /\ dget (lit "TITEL") (pt_metadata p) = Some (VText titel) /\
  pt_symbol p = match nth_error (split_on sp titel) 1 with Some w => strip w | None => strip titel end /\ pt_element p = fst (split_first "_" (pt_symbol p)).
Proof. rewrite (pot_source _ _ _ ST) in RD. destruct (generate_ok _ _ _ RD PS) as (titel & F & R). rewrite (block_entries _ _ FD) in F. exists titel. auto. Qed.
Lemma value_read key ty v : documented key ty -> last_value kvs (lit key) v -> exists x, dget (lit key) (pt_metadata p) = Some x /\ holds ty v x.
Proof.
  intros D L. destruct metadata_read as (titel & F & _). destruct (store_last _ _ _ _ _ _ F L (documented_kind _ _ D)) as (x & C & G). exists x. split; auto. apply convert_holds; auto. apply (fields_values _ _ _ _ FD (last_value_In _ _ _ L)).
Qed.
(** ** C53 *)
(** Every documented parameter is an attribute (in any case) with the value of its last field;
    parameters without a field, and names that are not documented, are no attributes. *)
Theorem C53_metadata name key : upper name = lit key ->
  (forall ty v, documented key ty -> last_value kvs (lit key) v -> exists x, attribute p name = Ok x /\ holds ty v x) /\
  ((forall v, ~ In (lit key, v) kvs) \/ (forall ty, ~ documented key ty) -> attribute p name = Exn AttributeError).
Proof.
  intros U. unfold attribute. rewrite U. destruct metadata_read as (titel & F & _). split.
  - intros ty v D L. destruct (value_read _ _ _ D L) as (x & -> & H). exists x. auto.
  - intros [N|N]; [rewrite (store_absent _ _ _ _ F N); auto|]. rewrite (store_unknown _ _ _ _ F); auto. destruct (kind_of (lit key)) as [k|] eqn:K; auto. apply kind_doc in K as (s & E & D). assert (s = key) as ->. { clear -E. unfold lit in E. rewrite <- (string_of_list_ascii_of_string s), <- E. apply string_of_list_ascii_of_string. } destruct (N _ D).
Qed.
Lemma no_char_nochar c s : no_char c s <-> nochar c s = true.
Proof. unfold no_char, nochar. rewrite forallb_forall. split; [intros H x X; apply negb_true_iff, aeqb_neq; intros ->; auto|intros H X; specialize (H _ X); rewrite aeqb_refl in H; discriminate]. Qed.
(** the symbol is the second word of the title, the element the part before the first underscore *)
Theorem C53_symbol v : last_value kvs (lit "TITEL") v -> symbol_of (strip v) (pt_symbol p) /\ element_of (pt_symbol p) (pt_element p).
Proof.
  intros L. destruct (value_read "TITEL" PText v) as (x & G & H); [cbn; auto|auto|]. cbn in H. subst x. destruct metadata_read as (titel & F & T & S1 & E1). rewrite G in T. injection T as <-. split.
  - rewrite S1. unfold symbol_of. destruct (split_on sp (strip v)) as [|a [|b r]] eqn:SP.
    + destruct (split_on_ne sp (strip v)). auto.
    + right. cbn [nth_error]. pose proof (split_on_parts sp (strip v) a) as NP. rewrite SP in NP. specialize (NP (or_introl eq_refl)). pose proof (split_on_join sp (strip v)) as J. rewrite SP in J. cbn [join] in J. rewrite J in NP. split; [apply no_char_nochar; auto|auto].
    + left. cbn [nth_error]. pose proof (split_on_parts sp (strip v)) as NP. rewrite SP in NP. pose proof (split_on_join sp (strip v)) as J. rewrite SP in J. cbn [join] in J.
      exists a, b, (match r with [] => [] | _ => sp :: join [sp] r end). split; [|split; [|split; [|split; auto]]].
      * rewrite <- J. destruct r; auto. rewrite app_nil_r. auto.
      * apply no_char_nochar, NP. cbn. auto.
      * apply no_char_nochar, NP. cbn. auto.
      * destruct r; eauto.
  - rewrite E1. unfold element_of. pose proof (split_first_spec "_" (pt_symbol p)) as SF. pose proof (split_first_nochar "_" (pt_symbol p)) as NC. destruct (split_first "_" (pt_symbol p)) as [a [b|]]; cbn [fst] in *; apply no_char_nochar in NC.
    + exists ("_"%char :: b). eauto.
    + exists []. rewrite app_nil_r. auto.
Qed.
Lemma lower_upper_codes s : (forall c, In c [("pe", "PE"); ("91", "91"); ("rp", "RP"); ("am", "AM"); ("ps", "PS"); ("pw", "PW"); ("lm", "LM"); ("pb", "PB"); ("ca", "CA"); ("hl", "HL"); ("wi", "WI")]%string -> (lower s = lit (fst c) <-> upper s = lit (snd c))).
Proof.
  assert (forall lo up : string, (forall i, match nth_error (lit lo) i, nth_error (lit up) i with Some a, Some b => forall c, lower1 c = a <-> upper1 c = b | None, None => True | _, _ => False end) -> (lower s = lit lo <-> upper s = lit up)) as K.
  { intros lo up. generalize (lit lo) (lit up). clear. intros l u H. revert l u H. induction s as [|c s IH]; intros [|a l] [|b u] H; try (specialize (H 0); cbn in H; contradiction); cbn [lower upper map].
    - tauto.
    - split; discriminate.
    - split; discriminate.
    - fold (lower s) (upper s). specialize (IH l u (fun i => H (S i))). specialize (H 0). cbn in H. specialize (H c). split; intros E; injection E as E1 E2; f_equal; tauto. }
  assert (forall a b, forallb (fun c => Bool.eqb (aeqb (lower1 c) a) (aeqb (upper1 c) b)) all_ascii = true -> forall c, lower1 c = a <-> upper1 c = b) as Q.
  { intros a b H c. pose proof (forall_ascii _ H c) as X. cbv beta in X. apply eqb_prop in X. rewrite <- !aeqb_eq, X. tauto. }
  intros c C. cbn [In] in C. repeat destruct C as [<-|C]; try (destruct C); cbn [fst snd]; apply K; intros [|[|i]]; cbn [nth_error lit list_ascii_of_string]; auto; try (apply Q; vm_compute; reflexivity); destruct i; cbn; auto.
Qed.
(** the functional and its class are those of the LEXCH code, in upper or lower case; other codes have none *)
Theorem C53_functional v : last_value kvs (lit "LEXCH") v ->
  (forall code name class, In (code, name, class) known_functionals -> same_code (strip v) code -> functional p = Ok (Some name) /\ functional_class p = Ok (Some class)) /\
  ((forall code name class, In (code, name, class) known_functionals -> ~ same_code (strip v) code) -> functional p = Ok None /\ functional_class p = Ok None).
Proof.
  intros L. destruct (value_read "LEXCH" PText v) as (x & G & H); [cbn; auto|auto|]. cbn in H. subst x. unfold functional, functional_class. rewrite G. set (s := strip v) in *. pose proof (lower_upper_codes s) as LU. unfold tags_of, functional_tags, same_code. split.
  - intros code name class C U. unfold known_functionals in C. cbn [In] in C.
    repeat (destruct C as [C|C]; [injection C as <- <- <-;
      match goal with U : upper s = lit ?up |- _ => let lo := (eval cbv in (match up with "PE" => "pe" | "91" => "91" | "RP" => "rp" | "AM" => "am" | "PS" => "ps" | "PW" => "pw" | "LM" => "lm" | "PB" => "pb" | "CA" => "ca" | "HL" => "hl" | "WI" => "wi" | _ => "" end)%string) in assert (lower s = lit lo) as -> by (apply (LU (lo, up)); [cbn; tauto|auto]) end; split; reflexivity|]); destruct C.
  - intros N. assert (dget (lower s) (map (fun p => (lit (fst p), snd p)) functional_tags) = None) as E.
    { unfold functional_tags. cbn [map fst snd dget].
      repeat match goal with |- context [if seqb (lower s) ?l then _ else _] => destruct (seqb (lower s) l) eqn:?H; [exfalso; match goal with H : seqb (lower s) (lit ?lo) = true |- _ => apply seqb_eq in H; let up := (eval cbv in (match lo with "pe" => "PE" | "91" => "91" | "rp" => "RP" | "am" => "AM" | "ps" => "PS" | "pw" => "PW" | "lm" => "LM" | "pb" => "PB" | "ca" => "CA" | "hl" => "HL" | "wi" => "WI" | _ => "" end)%string) in apply (LU (lo, up)) in H; [|cbn; tauto]; cbn [snd] in H; eapply (N up); [unfold known_functionals; cbn [In]; tauto|exact H] end|] end. auto. }
    unfold functional_tags in E. rewrite E. auto.
Qed.
End Read.
(** ** All texts *)
Definition all_readable (kvs : list (str * str)) : Prop := forall key ty v, documented key ty -> In (lit key, v) kvs -> readable ty v.
Lemma all_store mid kvs : fields mid kvs -> all_readable kvs -> exists d, foldM store kvs [] = Ok d.
Proof.
  intros F R. apply store_all. intros k v kd X K. apply kind_doc in K as K'. destruct K' as (s & -> & D). assert (kind_for (type_for kd) = kd) as E by (destruct kd; auto). rewrite <- E. apply readable_converts; [apply (fields_values _ _ _ _ F X)|eapply R; eauto].
Qed.
Lemma title_text kvs d v : foldM store kvs [] = Ok d -> last_value kvs (lit "TITEL") v -> dget (lit "TITEL") d = Some (VText (strip v)).
Proof. intros F L. destruct (store_last _ _ _ _ _ KText F L) as (x & C & G); [reflexivity|]. cbn [convert] in C. apply Ok_inj' in C. subst x. exact G. Qed.
(** A header with a title, all of whose documented fields can be read, is accepted. *)
Theorem C53_accepts path handler t mid kvs : source_text path handler t -> psctr t mid -> fields mid kvs -> all_readable kvs -> (exists v, In (lit "TITEL", v) kvs) -> exists p, potcar_init path handler = Ok p.
Proof.
  intros ST PS FD R [v V]. rewrite (pot_source _ _ _ ST). unfold generate_metadata. rewrite (psctr_block_ok _ _ PS). cbn [bind]. rewrite (block_entries _ _ FD). destruct (all_store _ _ FD R) as [d D]. rewrite D. cbn [bind].
  destruct (last_or_none kvs (lit "TITEL")) as [[v' L]|N]; [|destruct (N _ V)]. rewrite (title_text _ _ _ D L). eauto.
Qed.
(** Only the first header counts: two texts with the same first header give the same object. *)
Theorem C53_first_header path handler path' handler' t t' mid : source_text path handler t -> source_text path' handler' t' -> psctr t mid -> psctr t' mid ->
  potcar_init path handler = potcar_init path' handler'.
Proof. intros S1 S2 P1 P2. rewrite (pot_source _ _ _ S1), (pot_source _ _ _ S2). unfold generate_metadata. rewrite (psctr_block_ok _ _ P1), (psctr_block_ok _ _ P2). auto. Qed.
(** The header and its fields are determined by the text. *)
Theorem C53_unambiguous t mid mid' kvs kvs' : psctr t mid -> psctr t mid' -> fields mid kvs -> fields mid' kvs' -> mid = mid' /\ kvs = kvs'.
Proof. intros P P' F F'. rewrite <- (psctr_fun _ _ _ P P') in *. split; auto. rewrite <- (block_entries _ _ F), <- (block_entries _ _ F'). auto. Qed.

(** ** C67 *)
Theorem C67_no_header path handler t : source_text path handler t -> (forall mid, ~ psctr t mid) -> potcar_init path handler = Exn AttributeError.
Proof. intros ST N. rewrite (pot_source _ _ _ ST). unfold generate_metadata. rewrite psctr_block_none; auto. Qed.
Theorem C67_no_title path handler t mid kvs : source_text path handler t -> psctr t mid -> fields mid kvs -> all_readable kvs -> (forall v, ~ In (lit "TITEL", v) kvs) -> potcar_init path handler = Exn KeyError.
Proof.
  intros ST PS FD R N. rewrite (pot_source _ _ _ ST). unfold generate_metadata. rewrite (psctr_block_ok _ _ PS). cbn [bind]. rewrite (block_entries _ _ FD). destruct (all_store _ _ FD R) as [d D]. rewrite D. cbn [bind]. rewrite (store_absent _ _ _ _ D N). auto.
Qed.
(** a documented field that cannot be read: no object *)
Theorem C67_unreadable path handler t mid kvs key ty v p : source_text path handler t -> psctr t mid -> fields mid kvs -> documented key ty -> In (lit key, v) kvs ->
  match ty with PText => False | PFlag => forall b, ~ flag_value v b | PInt => forall z, ~ int_value v z | PFloat => forall tok rest y, v = tok ++ rest -> parse_float tok <> Some y | PFloats => forall l, ~ word_numbers (split_ws v) l end ->
  potcar_init path handler <> Ok p.
Proof.
  intros ST PS FD D V B H. destruct (metadata_read _ _ _ _ _ _ H ST PS FD) as (titel & F & _). destruct (store_ok_all _ _ _ _ _ _ F V (documented_kind _ _ D)) as [x X]. apply convert_holds in X; [|apply (fields_values _ _ _ _ FD V)]. destruct ty; cbn [holds] in X.
  - auto.
  - destruct X as (b & _ & X). eapply B; eauto.
  - destruct X as (z & _ & X). eapply B; eauto.
  - destruct X as (y & _ & (tok & rest & E & X) & _). eapply B; eauto.
  - destruct X as (l & _ & X). eapply B; eauto.
Qed.
Theorem C67_exit_codes path handler c : potcar_init path handler = Exn (SysExit c) -> c = 14%Z /\ path = Some None /\ handler = None.
Proof.
  assert (forall t, noexits (generate_metadata t)) as NE.
  { clear c. intros t. unfold generate_metadata, psctr_block. repeat noexits_step. unfold store. repeat noexits_step. unfold convert, to_flag, to_integer, OutcarModel.to_float, OutcarModel.to_int. repeat noexits_step. all: intros ?; discriminate. }
  unfold potcar_init. destruct handler as [h|].
  - destruct path; cbn [is_some negb andb read_text bind]; intros H; apply NE in H; destruct H.
  - destruct path as [[txt|]|]; cbn [is_some negb andb read_text bind]; intros H; [apply NE in H; destruct H| |]; inversion H; auto.
Qed.
Theorem C67_no_source : potcar_init None None = Exn ValueError.
Proof. reflexivity. Qed.
(** without LEXCH the functional cannot be asked for *)
Theorem C67_no_functional path handler p t mid kvs : potcar_init path handler = Ok p -> source_text path handler t -> psctr t mid -> fields mid kvs -> (forall v, ~ In (lit "LEXCH", v) kvs) ->
  functional p = Exn AttributeError /\ functional_class p = Exn AttributeError.
Proof. intros H ST PS FD N. destruct (metadata_read _ _ _ _ _ _ H ST PS FD) as (titel & F & _). unfold functional, functional_class. rewrite (store_absent _ _ _ _ F N). auto. Qed.

Lemma plus_prefix m c r : mantissa m -> (c = "e" \/ c = "E")%char -> number_prefix (m ++ c :: "+"%char :: r) = m ++ [c].
Proof.
  intros M C. rewrite number_prefix_mantissa; auto; [|destruct C as [->| ->]; split; [reflexivity|discriminate|reflexivity|discriminate]].
  f_equal. destruct C as [->| ->]; reflexivity.
Qed.
(** A number with an explicit plus sign in its exponent (1.5E+03) is not read: no object. *)
Theorem C67_plus_refuted path handler t mid kvs key m c r p : source_text path handler t -> psctr t mid -> fields mid kvs -> documented key PFloat ->
  mantissa m -> (c = "e" \/ c = "E")%char -> In (lit key, m ++ c :: "+"%char :: r) kvs -> potcar_init path handler <> Ok p.
Proof.
  intros ST PS FD D M C V H. destruct (metadata_read _ _ _ _ _ _ H ST PS FD) as (titel & F & _). destruct (store_ok_all _ _ _ _ _ _ F V (documented_kind _ _ D)) as [x X]. cbn [kind_for convert] in X. rewrite plus_prefix in X by auto. unfold OutcarModel.to_float in X. rewrite bare_exponent in X by auto. discriminate.
Qed.
(** A Fortran double (1.5D-03) is read as its mantissa: the exponent is lost. *)
Theorem C67_fortran_d_refuted path handler p t mid kvs key m c r : potcar_init path handler = Ok p -> source_text path handler t -> psctr t mid -> fields mid kvs -> documented key PFloat ->
  mantissa m -> (c = "d" \/ c = "D")%char -> last_value kvs (lit key) (m ++ c :: r) -> exists x, parse_float m = Some x /\ attribute p (lit key) = Ok (VFloat x).
Proof.
  intros H ST PS FD D M C L. destruct (metadata_read _ _ _ _ _ _ H ST PS FD) as (titel & F & _). destruct (store_last _ _ _ _ _ _ F L (documented_kind _ _ D)) as (x & X & G). cbn [kind_for convert] in X.
  rewrite number_prefix_mantissa in X; auto; [|destruct C as [->| ->]; split; [reflexivity|discriminate|reflexivity|discriminate]]. rewrite tail_prefix_stops in X by (destruct C as [->| ->]; cbn; repeat split; discriminate). rewrite app_nil_r in X. unfold OutcarModel.to_float in X. destruct (parse_float m) as [y|]; [|discriminate]. cbn in X. apply Ok_inj' in X. subst x. exists y. split; auto. unfold attribute. rewrite (documented_upper _ _ D), G. auto.
Qed.
Lemma entries_mid mid kvs : (forall tail, no_eq tail -> entries 0 (psctr_start ++ mid ++ tail) = kvs) -> forall t, psctr t mid -> forall p, generate_metadata t = Ok p -> foldM store kvs [] = Ok (pt_metadata p).
Proof. intros E t PS p H. destruct (generate_ok _ _ _ H PS) as (titel & F & _). rewrite E in F by apply end_no_eq. auto. Qed.
(** A text field with an empty value takes over the following line, whose own field is lost. *)
Theorem C67_empty_value_refuted path handler p t s key blank blank' key' mid' post' v' rest kvs :
  potcar_init path handler = Ok p -> source_text path handler t ->
  psctr t (s ++ lit key ++ [sp] ++ "="%char :: (blank ++ nl :: blank') ++ (lit key' ++ mid' ++ "="%char :: post' ++ v') ++ rest) ->
  no_eq s -> ends_blank s -> documented key PText -> blanks blank -> blanks blank' -> is_key (lit key') -> blanks mid' -> no_char nl mid' -> blanks post' -> no_char nl post' -> is_value v' ->
  (exists c r, rest = c :: r /\ (c = ";"%char \/ c = nl)) -> fields rest kvs -> (forall v, ~ In (lit key, v) kvs) -> (forall v, ~ In (lit key', v) kvs) -> lit key <> lit key' ->
  attribute p (lit key) = Ok (VText (strip (lit key' ++ mid' ++ "="%char :: post' ++ v'))) /\ dget (lit key') (pt_metadata p) = None.
Proof.
  intros H ST PS NS EB D B B' K' M' MN P' PN V' R FD N N' NK. rewrite (pot_source _ _ _ ST) in H.
  assert (is_key (lit key)) as K. { unfold is_key. cbn [documented In] in D. repeat (destruct D as [<-|D]; [split; [discriminate|]; split; [intros c C; cbn in C; repeat (destruct C as [<-|C]; [reflexivity|]); destruct C|]; split; intros C; cbn in C; repeat (destruct C as [C|C]; [discriminate|]); destruct C|]). destruct D. }
  assert (blanks (blank ++ nl :: blank')) as BB. { intros c C. apply in_app_or in C as [C|[<-|C]]; auto. }
  assert (is_value (lit key' ++ mid' ++ "="%char :: post' ++ v')) as VV.
  { destruct K' as (KN & KS & KE & KC). destruct V' as ((c & r & -> & C) & V1 & V2). unfold is_value, no_char in *. split; [destruct (lit key') as [|k ks]; [congruence|]; exists k, (ks ++ mid' ++ "="%char :: post' ++ c :: r); split; [auto|apply KS; cbn; auto]|].
    split; intros X; repeat (apply in_app_or in X as [X|X]); auto.
    - specialize (M' _ X). discriminate.
    - destruct X as [X|X]; [discriminate|]. apply in_app_or in X as [X|X]; auto. specialize (P' _ X). discriminate.
    - specialize (KS _ X). discriminate.
    - destruct X as [X|X]; [discriminate|]. apply in_app_or in X as [X|X]; auto. }
  assert (foldM store ((lit key, lit key' ++ mid' ++ "="%char :: post' ++ v') :: kvs) [] = Ok (pt_metadata p)) as F.
  { eapply entries_mid; [|exact PS|exact H]. intros tail NT.
    match goal with |- entries 0 ?X = _ => replace X with ((psctr_start ++ s) ++ lit key ++ [sp] ++ "="%char :: (blank ++ nl :: blank') ++ (lit key' ++ mid' ++ "="%char :: post' ++ v') ++ rest ++ tail) by (repeat (rewrite <- app_assoc; cbn [app]); auto) end.
    rewrite entries_one; auto.
    - f_equal. apply fields_entries; auto.
    - apply in_app_no_eq. split; [apply start_no_eq|auto].
    - apply ends_blank_app. auto.
    - intros c [<-|[]]. reflexivity.
    - left. discriminate.
    - destruct R as (c & r & -> & C). exists c, (r ++ tail). auto. }
  split.
  - destruct (store_last _ _ _ (lit key) (lit key' ++ mid' ++ "="%char :: post' ++ v') KText F) as (x & X & G); [exists [], kvs; auto|apply (documented_kind _ _ D)|]. cbn [convert] in X. apply Ok_inj' in X. subst x. unfold attribute. rewrite (documented_upper _ _ D), G. auto.
  - rewrite (store_absent _ _ _ _ F); auto. intros v [X|X]; [injection X as X _; auto|eapply N'; eauto].
Qed.
(** A field right after a semicolon, without a blank, is lost. *)
Theorem C67_semicolon_refuted path handler p t s key mid post v key' post' v' rest kvs :
  potcar_init path handler = Ok p -> source_text path handler t ->
  psctr t (s ++ key ++ (sp :: mid) ++ "="%char :: post ++ v ++ (";"%char :: lit key' ++ [sp] ++ "="%char :: post' ++ v' ++ rest)) ->
  no_eq s -> ends_blank s -> is_key key -> blanks mid -> blanks post -> is_value v -> is_key (lit key') -> blanks post' -> is_value v' ->
  (exists c r, rest = c :: r /\ (c = ";"%char \/ c = nl)) -> fields rest kvs -> (forall v, ~ In (lit key', v) kvs) -> key <> lit key' ->
  dget (lit key') (pt_metadata p) = None.
Proof.
  intros H ST PS NS EB K M P V K' P' V' R FD N NK. rewrite (pot_source _ _ _ ST) in H.
  assert (foldM store ((key, v) :: (";"%char :: lit key', v') :: kvs) [] = Ok (pt_metadata p)) as F.
  { eapply entries_mid; [|exact PS|exact H]. intros tail NT.
    match goal with |- entries 0 ?X = _ => replace X with ((psctr_start ++ s) ++ key ++ (sp :: mid) ++ "="%char :: post ++ v ++ (";"%char :: lit key' ++ [sp] ++ "="%char :: post' ++ v' ++ rest ++ tail)) by (repeat (rewrite <- app_assoc; cbn [app]); auto) end.
    rewrite entries_one; auto.
    - f_equal. rewrite (entries_field _ (";"%char :: lit key') (rest ++ tail) v' (post' ++ v' ++ rest ++ tail)).
      + f_equal. apply fields_entries; auto.
      + unfold key_here. change (";"%char :: lit key' ++ [sp] ++ "="%char :: post' ++ v' ++ rest ++ tail) with ((";"%char :: lit key') ++ sp :: "="%char :: post' ++ v' ++ rest ++ tail). rewrite span_all; [reflexivity| |reflexivity]. intros c [<-|C]; [reflexivity|apply (key_nonspace (lit key')); auto].
      + apply value_here_ok; auto. destruct R as (c & r & -> & C). exists c, (r ++ tail). auto.
      + exists (";"%char :: lit key' ++ [sp] ++ "="%char :: post' ++ v'). split; [cbn [app]; repeat (rewrite <- app_assoc; cbn [app]); auto|discriminate].
    - apply in_app_no_eq. split; [apply start_no_eq|auto].
    - apply ends_blank_app. auto.
    - intros c [<-|C]; [reflexivity|auto].
    - left. discriminate.
    - eauto. }
  rewrite (store_absent _ _ _ _ F); auto. intros w [X|[X|X]].
  - injection X as X _. auto.
  - injection X as X _. destruct K' as (_ & _ & _ & KC). apply KC. rewrite <- X. cbn. auto.
  - eapply N; eauto.
Qed.

(** ** A concrete header *)
Ltac not_in := intros X; cbn in X; repeat (destruct X as [X|X]; [discriminate|]); destruct X.
Ltac all_in := intros c X; cbn in X; repeat (destruct X as [<-|X]; [reflexivity|]); destruct X.
Ltac field_done := unfold is_key, is_value, blanks, ends_blank, no_eq, no_char;
  repeat match goal with |- _ /\ _ => split | |- ~ In _ _ => not_in | |- forall c, In c _ -> _ = _ => all_in | |- _ <> [] => discriminate
  | |- exists c r, _ = c :: r /\ _ => eexists _, _; split; [reflexivity|first [reflexivity|left; reflexivity|right; reflexivity]] end.
Definition sample_mid : str :=
  lit (String nl "   ") ++ lit "VRHFIN" ++ lit " " ++ "="%char :: lit "" ++ lit "W: 5d6s" ++ (
  lit (String nl "   ") ++ lit "LEXCH" ++ lit "  " ++ "="%char :: lit " " ++ lit "PE" ++ (
  lit (String nl " ") ++ lit "EATOM" ++ lit "  " ++ "="%char :: lit "  " ++ lit "215.3852E-1 eV,   15.8304 Ry" ++ (
  lit (String nl "   ") ++ lit "TITEL" ++ lit "  " ++ "="%char :: lit " " ++ lit "PAW_PBE W_pv 06Sep2000" ++ (
  lit (String nl "   ") ++ lit "LULTRA" ++ lit " " ++ "="%char :: lit "   " ++ lit "F    use ultrasoft PP ?" ++ (
  lit (String nl "   ") ++ lit "POMASS" ++ lit " " ++ "="%char :: lit "  " ++ lit "183.850" ++ (
  lit "; " ++ lit "ZVAL" ++ lit "   " ++ "="%char :: lit "   " ++ lit "12.000    mass and valenz" ++ (
  lit (String nl "   ") ++ lit "NDATA" ++ lit "  " ++ "="%char :: lit " " ++ lit "100" ++ (
  lit (String nl "   ") ++ lit "STEP" ++ lit "   " ++ "="%char :: lit " " ++ lit "20.000   1.050" ++ (
  lit (String nl "   ")))))))))).
Definition sample_kvs : list (str * str) :=
  [(lit "VRHFIN", lit "W: 5d6s"); (lit "LEXCH", lit "PE"); (lit "EATOM", lit "215.3852E-1 eV,   15.8304 Ry"); (lit "TITEL", lit "PAW_PBE W_pv 06Sep2000"); (lit "LULTRA", lit "F    use ultrasoft PP ?");
   (lit "POMASS", lit "183.850"); (lit "ZVAL", lit "12.000    mass and valenz"); (lit "NDATA", lit "100"); (lit "STEP", lit "20.000   1.050")].
Example sample_fields : fields sample_mid sample_kvs.
Proof.
  unfold sample_mid, sample_kvs.
  repeat (apply one_field; [field_done|eexists _, _; split; [first [exact (eq_refl (lit (String nl "  ") ++ [sp]))|exact (eq_refl (lit (String nl "") ++ [sp]))|exact (eq_refl (lit ";" ++ [sp]))]|reflexivity]|field_done|field_done|field_done|field_done|field_done|left; discriminate|field_done|]).
  constructor. field_done.
Qed.
Definition sample_potcar : str := lit "  PAW_PBE W_pv" ++ lit (String nl " parameters from PSCTR are:") ++ sample_mid ++ lit "END of PSCTR-controll parameters" ++ lit (String nl " parameters from PSCTR are: TITEL = x").
Example sample_psctr : psctr sample_potcar sample_mid.
Proof.
  exists (lit "  PAW_PBE W_pv" ++ lit (String nl " ")), (sample_mid ++ lit "END of PSCTR-controll parameters" ++ lit (String nl " parameters from PSCTR are: TITEL = x")), (lit (String nl " parameters from PSCTR are: TITEL = x")).
  split.
  - pose proof (cut_ok psctr_start sample_potcar) as C. assert (cut psctr_start sample_potcar = Some (lit "  PAW_PBE W_pv" ++ lit (String nl " "), sample_mid ++ lit "END of PSCTR-controll parameters" ++ lit (String nl " parameters from PSCTR are: TITEL = x"))) as E by (vm_compute; reflexivity). rewrite E in C. exact C.
  - pose proof (cut_ok psctr_end (sample_mid ++ lit "END of PSCTR-controll parameters" ++ lit (String nl " parameters from PSCTR are: TITEL = x"))) as C. match type of C with match ?x with _ => _ end => assert (x = Some (sample_mid, lit (String nl " parameters from PSCTR are: TITEL = x"))) as E by (vm_compute; reflexivity) end. rewrite E in C. exact C.
Qed.
Example sample_accepted : exists p, potcar_init (Some (Some sample_potcar)) None = Ok p /\ pt_symbol p = lit "W_pv" /\ pt_element p = lit "W" /\ functional p = Ok (Some "PBE"%string) /\
  attribute p (lit "lultra") = Ok (VFlag false) /\ attribute p (lit "ndata") = Ok (VInt 100) /\ attribute p (lit "enmax") = Exn AttributeError /\ sample_kvs <> [].
Proof. eexists. split; [vm_compute; reflexivity|]. vm_compute. repeat split; discriminate. Qed.
(** the hypotheses of the refuted claims are met *)
Example plus_case : mantissa (lit "215.3852") /\ ~ float_text (lit "215.3852E+1").
Proof.
  split; [exists [], (lit "215"), ["."%char], (lit "3852"); repeat split; try discriminate; try (left; reflexivity); try all_in; left; discriminate|].
  intros F. apply number_prefix_float with (rest := []) in F; [|exact I]. vm_compute in F. discriminate.
Qed.
Example empty_case : let mid := lit (String nl "   TITEL =" ++ String nl "   LEXCH = PE" ++ String nl "") in
  exists p, generate_metadata (psctr_start ++ mid ++ psctr_end) = Ok p /\ attribute p (lit "TITEL") = Ok (VText (lit "LEXCH = PE")) /\ functional p = Exn AttributeError.
Proof. cbv zeta. eexists. split; [vm_compute; reflexivity|]. vm_compute. split; reflexivity. Qed.
Example semicolon_case : let mid := lit (String nl "   TITEL = PAW W; POMASS = 1.5;ZVAL = 2.0" ++ String nl "") in
  exists p, generate_metadata (psctr_start ++ mid ++ psctr_end) = Ok p /\ attribute p (lit "ZVAL") = Exn AttributeError /\ is_some (dget (lit "POMASS") (pt_metadata p)) = true.
Proof. cbv zeta. eexists. split; [vm_compute; reflexivity|]. vm_compute. split; reflexivity. Qed.
Example fortran_case : exists p, generate_metadata (psctr_start ++ lit (String nl "   TITEL = PAW W; POMASS = 1.5D2" ++ String nl "") ++ psctr_end) = Ok p /\ exists x, parse_float (lit "1.5") = Some x /\ attribute p (lit "POMASS") = Ok (VFloat x).
Proof. eexists. split; [vm_compute; reflexivity|]. eexists. split; vm_compute; reflexivity. Qed.
Example sample_readable : all_readable sample_kvs.
Proof.
  intros key ty v D V. apply documented_kind in D. unfold sample_kvs in V. cbn [In] in V.
  assert (forall s a dot b e r, v = (s ++ a ++ dot ++ b ++ e) ++ r -> sign_text s -> digits a -> digits b -> a <> [] \/ b <> [] -> dot = ["."%char] \/ (dot = [] /\ b = []) -> exponent_text e -> stops r -> readable PFloat v) as FL.
  { intros s a dot b e r -> S1 A B NE DT X R. exists (s ++ a ++ dot ++ b ++ e), r. split; auto. split; auto. exists s, a, dot, b, e. auto 10. }
  repeat (destruct V as [V|V]; [pose proof (f_equal fst V) as V1; pose proof (f_equal snd V) as V2; cbn [fst snd] in V1, V2; rewrite <- V1 in D; rewrite <- V2 in *; clear V V1 V2; vm_compute in D; destruct ty; try discriminate D; try exact I; clear D|]); [..|destruct V].
  - apply (FL [] (lit "215") ["."%char] (lit "3852") (lit "E-1") (lit " eV,   15.8304 Ry")); try reflexivity; try all_in; auto; [left; auto|left; discriminate| |cbn; repeat split; discriminate].
    right. exists "E"%char, (lit "-1"). split; [reflexivity|]. split; auto. exists (lit "1"). split; [discriminate|]. split; [all_in|auto].
  - exists false. apply flag_ok. reflexivity.
  - apply (FL [] (lit "183") ["."%char] (lit "850") [] []); try reflexivity; try all_in; auto; try exact I; [left; auto|left; discriminate|left; auto].
  - apply (FL [] (lit "12") ["."%char] (lit "000") [] (lit "    mass and valenz")); try reflexivity; try all_in; auto; [left; auto|left; discriminate|left; auto|cbn; repeat split; discriminate].
  - exists 100%Z. apply integer_ok. vm_compute. reflexivity.
  - eexists. apply word_numbers_ok. vm_compute. reflexivity.
Qed.
