(** Lemmas for the POTCAR model. *)
From Coq Require Import Ascii String List NArith ZArith Bool Lia.
From Verif Require Import PyBase PyStrLemmas PyNum UtilsModel LineModel OutcarModel OutcarMatch KpointsCodes DoscarProofs StreamConfig ChgcarModel ChgcarSpec ChgcarProofs PotcarModel PotcarSpec.
Import ListNotations.
Local Open Scope list_scope.

(** ** Spans *)
Lemma span_all f (a b : str) : (forall c, In c a -> f c = true) -> match b with [] => True | c :: _ => f c = false end -> span f (a ++ b) = (a, b).
Proof.
  induction a as [|c a IH]; intros F B; cbn [app span].
  - destruct b as [|c b]; auto. cbn [span]. rewrite B. auto.
  - rewrite (F c) by (cbn; auto). rewrite IH; auto. intros d D. apply F. cbn. auto.
Qed.
Lemma span_split f (l : str) : exists a b, span f l = (a, b) /\ l = a ++ b /\ (forall c, In c a -> f c = true) /\ match b with [] => True | c :: _ => f c = false end.
Proof.
  induction l as [|c l IH]; cbn [span].
  - exists [], []. split; [auto|]. split; [auto|]. split; [intros c []|auto].
  - destruct (f c) eqn:F.
    + destruct IH as (a & b & -> & -> & A & B). exists (c :: a), b. split; [auto|]. split; [auto|]. split; [intros d [<-|D]; auto|auto].
    + exists [], (c :: l). split; [auto|]. split; [auto|]. split; [intros d []|auto].
Qed.
Definition head_not (f : ascii -> bool) (l : str) : Prop := match l with [] => True | c :: _ => f c = false end.
Definition dropped (l : str) : str := snd (span is_space l).
Lemma dropped_blanks a b : blanks a -> head_not is_space b -> dropped (a ++ b) = b.
Proof. intros A B. unfold dropped. rewrite span_all; auto. Qed.

(** ** Keys *)
Lemma is_eq_iff c : is_eq c = true <-> c = "="%char.
Proof. unfold is_eq. apply aeqb_eq. Qed.
Lemma last_eq_none run : no_eq run -> last_eq run = None.
Proof.
  unfold no_eq, no_char. induction run as [|c run IH]; intros N; cbn [last_eq]; auto. rewrite IH by (intros X; apply N; cbn; auto). destruct (is_eq c) eqn:E; auto. apply is_eq_iff in E. subst. destruct N. cbn. auto.
Qed.
Lemma last_eq_app a b : no_eq b -> last_eq (a ++ "="%char :: b) = Some (a, b).
Proof. intros N. induction a as [|c a IH]; cbn [app last_eq]; [rewrite last_eq_none by auto; reflexivity|]. rewrite IH. auto. Qed.
(** no key ends in the first word of [T], nor at an equals sign right after it *)
Definition calm (T : str) : Prop := no_eq (fst (span not_space T)) /\ head_not is_eq (dropped (snd (span not_space T))).
Lemma in_app_no_eq a b : no_eq (a ++ b) <-> no_eq a /\ no_eq b.
Proof. unfold no_eq, no_char. rewrite in_app_iff. tauto. Qed.
Lemma no_eq_cons c a : no_eq (c :: a) <-> c <> "="%char /\ no_eq a.
Proof. unfold no_eq, no_char. cbn [In]. split; [intros H; split; intros X; apply H; auto|intros [A B] [X|X]; auto]. Qed.
Lemma ends_blank_tail c s : ends_blank (c :: s) -> s = [] \/ ends_blank s.
Proof. intros (r & d & E & D). destruct r as [|x r]; cbn in E; injection E as -> E; [auto|]. right. exists r, d. auto. Qed.
Lemma ends_blank_app a b : ends_blank b -> ends_blank (a ++ b).
Proof. intros (r & d & -> & D). exists (a ++ r), d. rewrite app_assoc. auto. Qed.
Lemma drop_head Y X : no_eq Y -> head_not is_eq X -> head_not is_space X -> head_not is_eq (dropped (Y ++ X)).
Proof.
  intros N H HS. unfold dropped. induction Y as [|c Y IH]; cbn [app].
  - destruct X as [|c X]; [exact H|]. cbn [head_not] in HS. cbn [span]. rewrite HS. exact H.
  - cbn [span]. apply no_eq_cons in N as [N1 N2]. destruct (is_space c) eqn:S1.
    + specialize (IH N2). destruct (span is_space (Y ++ X)). exact IH.
    + cbn [snd head_not]. unfold is_eq. apply aeqb_neq. auto.
Qed.
Lemma calm_app Y X : no_eq Y -> ends_blank Y -> head_not is_eq X -> head_not is_space X -> calm (Y ++ X).
Proof.
  intros N E H HS. destruct (span_split not_space Y) as (a & b & SP & -> & A & B). assert (b <> []) as NB. { intros ->. destruct E as (r & c & E & C). rewrite app_nil_r in E. subst a. specialize (A c). unfold not_space in A. rewrite C in A. discriminate A. apply in_or_app. cbn. auto. }
  apply in_app_no_eq in N as [N1 N2]. unfold calm. rewrite <- app_assoc. rewrite span_all; [cbn [fst snd]|auto|destruct b; [congruence|auto]]. split; auto. apply drop_head; auto.
Qed.
Lemma calm_all T : no_eq T -> calm T.
Proof.
  intros N. destruct (span_split not_space T) as (a & b & SP & -> & A & B). apply in_app_no_eq in N as [N1 N2]. unfold calm. rewrite SP. cbn [fst snd]. split; auto. rewrite <- (app_nil_r b). apply drop_head; cbn; auto.
Qed.
Lemma key_here_calm T : calm T -> key_here T = None.
Proof.
  unfold calm, key_here. destruct (span not_space T) as [run r]. cbn [fst snd]. intros [N H]. destruct run as [|c run]; auto. apply no_eq_cons in N as [_ N]. rewrite last_eq_none by auto. unfold dropped in H. destruct (snd (span is_space r)) as [|e r']; auto. cbn in H. rewrite H. auto.
Qed.
Lemma key_nonspace key : is_key key -> forall c, In c key -> not_space c = true.
Proof. intros (_ & K & _) c C. unfold not_space. rewrite K by auto. auto. Qed.
Lemma key_here_close key T : is_key key -> calm T -> key_here (key ++ "="%char :: T) = Some (key, T).
Proof.
  intros K C. unfold key_here, calm in *. destruct (span_split not_space T) as (a & b & SP & -> & A & B). rewrite SP in C. cbn [fst snd] in C. destruct C as [N H].
  assert (span not_space (key ++ "="%char :: a ++ b) = (key ++ "="%char :: a, b)) as ->. { replace (key ++ "="%char :: a ++ b) with ((key ++ "="%char :: a) ++ b) by (rewrite <- app_assoc; auto). apply span_all; auto. intros c C. apply in_app_or in C as [C|[<-|C]]; auto. apply (key_nonspace key); auto. }
  destruct key as [|k key]; [destruct K; congruence|]. cbn [app]. rewrite last_eq_app by auto. unfold dropped in H. destruct (snd (span is_space b)) as [|e r']; auto. cbn in H. rewrite H. auto.
Qed.
Lemma key_here_apart key mid T : is_key key -> blanks mid -> mid <> [] -> key_here (key ++ mid ++ "="%char :: T) = Some (key, T).
Proof.
  intros K M NE. unfold key_here. destruct mid as [|m mid]; [congruence|]. rewrite span_all; [|apply (key_nonspace key); auto|cbn [app]; unfold not_space; rewrite (M m) by (cbn; auto); auto].
  destruct key as [|k key]; [destruct K; congruence|]. rewrite (span_all is_space (m :: mid) ("="%char :: T)); [|apply M|reflexivity]. auto.
Qed.
(** ** Values *)
Lemma value_here_ok post v rest : blanks post -> is_value v -> (exists c r, rest = c :: r /\ (c = ";"%char \/ c = nl)) -> value_here (post ++ v ++ rest) = (v, rest).
Proof.
  intros P ((c & r & -> & C) & N1 & N2) (d & r' & -> & D). unfold value_here. rewrite span_all; [cbn [snd]|exact P|cbn; auto].
  apply span_all.
  - intros x X. unfold value_char. apply negb_true_iff. apply orb_false_iff. split; apply aeqb_neq; intros ->; contradiction.
  - destruct D as [->| ->]; reflexivity.
Qed.
Lemma entries_skip n p rest : length p = n -> entries n (p ++ rest) = entries 0 rest.
Proof. revert n. induction p as [|c p IH]; intros [|n] L; try discriminate; auto. cbn [app entries]. apply IH. cbn in L. lia. Qed.
Lemma entries_no_eq t : no_eq t -> entries 0 t = [].
Proof. induction t as [|c t IH]; intros N; auto. cbn [entries]. rewrite key_here_calm by (apply calm_all; auto). apply IH. apply no_eq_cons in N. tauto. Qed.
Lemma entries_before s X : no_eq s -> ends_blank s -> head_not is_eq X -> head_not is_space X -> entries 0 (s ++ X) = entries 0 X.
Proof.
  intros N E H HS. assert (s = [] \/ ends_blank s) as E' by auto. clear E. induction s as [|c s IH]; auto. destruct E' as [E|E]; [discriminate|]. cbn [app entries]. change (c :: s ++ X) with ((c :: s) ++ X). rewrite key_here_calm by (apply calm_app; auto). apply IH; [apply no_eq_cons in N; tauto|eapply ends_blank_tail; eauto].
Qed.
Lemma entries_field T key rest v l : key_here T = Some (key, l) -> value_here l = (v, rest) -> (exists p, T = p ++ rest /\ p <> []) -> entries 0 T = (key, v) :: entries 0 rest.
Proof.
  intros K V (p & E & NE). destruct T as [|c r]; [destruct p; [congruence|discriminate]|]. cbn [entries]. rewrite K, V. f_equal. destruct p as [|c' p]; [congruence|]. cbn in E. injection E as -> ->. rewrite app_length. apply entries_skip. lia.
Qed.
(** one field, wherever its value begins *)
Lemma entries_one s key mid post v rest : no_eq s -> ends_blank s -> is_key key -> blanks mid -> blanks post -> is_value v -> mid <> [] \/ calm (post ++ v ++ rest) ->
  (exists c r, rest = c :: r /\ (c = ";"%char \/ c = nl)) -> entries 0 (s ++ key ++ mid ++ "="%char :: post ++ v ++ rest) = (key, v) :: entries 0 rest.
Proof.
  intros N E K M P V MV R. pose proof K as (KN & KS & KE & KC). destruct key as [|k key]; [congruence|].
  rewrite entries_before; auto; [|cbn; unfold is_eq; apply aeqb_neq; apply no_eq_cons in KE; tauto|cbn; apply KS; cbn; auto].
  apply (entries_field _ (k :: key) rest v (post ++ v ++ rest)); [|apply value_here_ok; auto|exists ((k :: key) ++ mid ++ "="%char :: post ++ v); split; [repeat (rewrite <- app_assoc; cbn [app]); auto|discriminate]].
  destruct MV as [MV|MV]; [apply key_here_apart; auto|]. destruct mid as [|m mid]; [|apply key_here_apart; auto; discriminate]. cbn [app]. change (k :: key ++ "="%char :: post ++ v ++ rest) with ((k :: key) ++ "="%char :: post ++ v ++ rest). apply key_here_close; auto.
Qed.
Lemma fields_calm rest kvs Y tail : fields rest kvs -> no_eq Y -> no_eq tail -> calm (Y ++ rest ++ tail).
Proof.
  intros F NY NT. inversion F as [s2 N2|s2 key2 mid2 post2 v2 rest2 kvs2 N2 E2 K2 M2 P2 PN2 V2 MV2 R2 F2]; subst.
  - apply calm_all. repeat (apply in_app_no_eq; split; auto).
  - replace (Y ++ (s2 ++ key2 ++ mid2 ++ "="%char :: post2 ++ v2 ++ rest2) ++ tail) with ((Y ++ s2) ++ (key2 ++ mid2 ++ "="%char :: post2 ++ v2 ++ rest2 ++ tail)) by (repeat (rewrite <- app_assoc; cbn [app]); auto).
    destruct K2 as (KN2 & KS2 & KE2 & KC2). destruct key2 as [|k2 key2]; [congruence|]. apply calm_app.
    + repeat (apply in_app_no_eq; split; auto).
    + apply ends_blank_app. auto.
    + cbn. unfold is_eq. apply aeqb_neq. apply no_eq_cons in KE2. tauto.
    + cbn. apply KS2. cbn. auto.
Qed.
Lemma blanks_no_eq b : blanks b -> no_eq b.
Proof. intros B X. specialize (B _ X). discriminate. Qed.
Lemma fields_entries mid kvs : fields mid kvs -> forall tail, no_eq tail -> entries 0 (mid ++ tail) = kvs.
Proof.
  intros F. induction F as [s N|s key mid post v rest kvs N E K M P PN V MV R F IH]; intros tail NT.
  - apply entries_no_eq, in_app_no_eq. auto.
  - replace ((s ++ key ++ mid ++ "="%char :: post ++ v ++ rest) ++ tail) with (s ++ (key ++ mid ++ "="%char :: post ++ v ++ rest ++ tail)) by (repeat (rewrite <- app_assoc; cbn [app]); auto).
    rewrite entries_one; auto; [rewrite IH; auto| |destruct R as (c & r & -> & C); exists c, (r ++ tail); auto].
    destruct MV as [MV|MV]; auto. right. rewrite app_assoc. eapply fields_calm; eauto. apply in_app_no_eq. auto using blanks_no_eq.
Qed.
Lemma fields_before p mid kvs : no_eq p -> fields mid kvs -> fields (p ++ mid) kvs.
Proof.
  intros N F. destruct F as [s NS|s key mid post v rest kvs NS E K M P PN V MV R F].
  - constructor. apply in_app_no_eq. auto.
  - replace (p ++ s ++ key ++ mid ++ "="%char :: post ++ v ++ rest) with ((p ++ s) ++ key ++ mid ++ "="%char :: post ++ v ++ rest) by (rewrite <- app_assoc; auto). constructor; auto; [apply in_app_no_eq; auto|apply ends_blank_app; auto].
Qed.
Lemma start_no_eq : no_eq psctr_start.
Proof. intros H. cbn in H. repeat destruct H as [H|H]; try discriminate; auto. Qed.
Lemma end_no_eq : no_eq psctr_end.
Proof. intros H. cbn in H. repeat destruct H as [H|H]; try discriminate; auto. Qed.
Lemma block_entries mid kvs : fields mid kvs -> entries 0 (psctr_start ++ mid ++ psctr_end) = kvs.
Proof. intros F. rewrite app_assoc. apply fields_entries; [apply fields_before; auto using start_no_eq|apply end_no_eq]. Qed.
Lemma psctr_block_ok t mid : psctr t mid -> psctr_block t = Ok (psctr_start ++ mid ++ psctr_end).
Proof. intros (b & a & r & F1 & F2). apply cut_some in F1, F2. unfold psctr_block, psctr_start, psctr_end. rewrite F1, F2. auto. Qed.
Lemma psctr_block_none t : (forall mid, ~ psctr t mid) -> psctr_block t = Exn AttributeError.
Proof.
  intros N. unfold psctr_block. pose proof (cut_ok psctr_start t) as C1. destruct (cut psctr_start t) as [[b a]|]; auto. pose proof (cut_ok psctr_end a) as C2. destruct (cut psctr_end a) as [[mid r]|]; auto. destruct (N mid). exists b, a, r. auto.
Qed.
Lemma psctr_fun t mid mid' : psctr t mid -> psctr t mid' -> mid = mid'.
Proof. intros (b & a & r & F1 & F2) (b' & a' & r' & F1' & F2'). destruct (first_in_fun _ _ _ _ _ _ F1 F1') as [-> ->]. destruct (first_in_fun _ _ _ _ _ _ F2 F2'). auto. Qed.

(** ** Flags and integers *)
Lemma flag_ok v b : to_flag v = Ok b <-> flag_value v b.
Proof.
  unfold to_flag, flag_value. split.
  - assert (forall c r, match c :: r with c :: _ => if is_tf c then Ok (aeqb (lower1 c) "t") else Exn AttributeError | [] => Exn AttributeError end = Ok b ->
      (((c = "T" \/ c = "t")%char /\ b = true) \/ ((c = "F" \/ c = "f")%char /\ b = false))) as K.
    { intros c r H. destruct (is_tf c) eqn:E; [|discriminate]. apply Ok_inj' in H. subst b. unfold is_tf in E. rewrite !orb_true_iff, !aeqb_eq in E. destruct E as [[[E|E]|E]|E]; subst c; cbn; auto. }
    destruct v as [|c v]; cbn [opt_char]; [discriminate|]. destruct (aeqb "." c) eqn:D.
    + apply aeqb_eq in D. subst c. cbn [snd]. destruct v as [|c v]; [discriminate|]. intros H. exists c, v. split; [auto|exact (K c v H)].
    + cbn [snd]. intros H. exists c, v. split; [auto|exact (K c v H)].
  - intros (c & r & [->| ->] & [[[->| ->] ->]|[[->| ->] ->]]); reflexivity.
Qed.
Lemma digits_span r : exists ds rest, span is_digit r = (ds, rest) /\ r = ds ++ rest /\ digits ds /\ no_digit_first rest.
Proof. destruct (span_split is_digit r) as (a & b & E & L & A & B). exists a, b. auto. Qed.
Lemma integer_ok v z : to_integer v = Ok z <-> int_value v z.
Proof.
  unfold to_integer, int_value. split.
  - destruct (opt_char (aeqb "-") v) as [s r] eqn:O. destruct (digits_span r) as (ds & rest & -> & -> & D & N). cbn [fst]. destruct ds as [|d ds]; [discriminate|]. unfold LineModel.to_int, OutcarModel.to_int. intros H. destruct (parse_int (s ++ d :: ds)) as [z'|] eqn:P; [|discriminate]. cbn in H. apply Ok_inj' in H. subst z'.
    exists (s ++ d :: ds), rest. split; [|split; [|split; auto]].
    + rewrite <- app_assoc. destruct v as [|c v]; cbn in O; [inversion O|]. destruct (aeqb "-" c) eqn:E; inversion O; subst; auto.
    + exists (d :: ds). split; [discriminate|]. split; auto. destruct v as [|c v]; cbn in O; [inversion O|]. destruct (aeqb "-" c) eqn:E; inversion O; subst; auto. apply aeqb_eq in E. subst c. auto.
  - intros (tok & rest & -> & (ds & NE & D & [->| ->]) & N & P).
    + assert (opt_char (aeqb "-") (ds ++ rest) = ([], ds ++ rest)) as ->. { destruct ds as [|d ds]; [congruence|]. cbn. destruct (aeqb "-" d) eqn:E; auto. apply aeqb_eq in E. subst d. specialize (D "-"%char (or_introl eq_refl)). discriminate. }
      rewrite span_all; auto. cbn [fst]. destruct ds; [congruence|]. unfold OutcarModel.to_int. cbn [app]. rewrite P. auto.
    + cbn [app opt_char]. rewrite aeqb_refl. rewrite span_all; auto. cbn [fst]. destruct ds; [congruence|]. unfold OutcarModel.to_int. cbn [app] in *. rewrite P. auto.
Qed.
(** ** Floats *)
Lemma digit_not c d : is_digit c = true -> is_digit d = false -> aeqb d c = false.
Proof. intros A B. apply aeqb_neq. intros ->. congruence. Qed.
Lemma opt_none f l : head_not f l -> opt_char f l = ([], l).
Proof. destruct l as [|c l]; auto. cbn. intros ->. auto. Qed.
Lemma opt_one f c l : f c = true -> opt_char f (c :: l) = ([c], l).
Proof. cbn. intros ->. auto. Qed.
Definition after_exponent (r : str) : str := let (f, r6) := opt_char (aeqb "-") r in f ++ fst (span is_digit r6).
(** what number_prefix takes after a mantissa *)
Definition tail_prefix (r : str) : str := let (e, r5) := opt_char (fun x => aeqb x "e" || aeqb x "E") r in e ++ after_exponent r5.
Lemma number_prefix_mantissa m r : mantissa m -> match r with [] => True | c :: _ => is_digit c = false /\ (c <> "."%char) end -> number_prefix (m ++ r) = m ++ tail_prefix r.
Proof.
  intros (sign & a & dot & b & -> & S1 & A & B & NE & D) R. unfold number_prefix.
  assert (opt_char (aeqb "-") ((sign ++ a ++ dot ++ b) ++ r) = (sign, a ++ dot ++ b ++ r)) as ->.
  { repeat rewrite <- app_assoc. destruct S1 as [->| ->]; [|reflexivity]. cbn [app]. apply opt_none. destruct a as [|x a]; cbn [app head_not].
    - destruct D as [->|[-> ->]]; [reflexivity|]. destruct NE; congruence.
    - apply digit_not; [apply A; cbn; auto|reflexivity]. }
  rewrite span_all; [|auto|destruct D as [->|[-> ->]]; [reflexivity|cbn [app]; destruct r; tauto]].
  assert (opt_char (aeqb ".") (dot ++ b ++ r) = (dot, b ++ r)) as ->.
  { destruct D as [->|[-> ->]]; [reflexivity|]. cbn [app]. apply opt_none. destruct r as [|c r]; cbn; auto. apply aeqb_neq. intros <-. tauto. }
  rewrite span_all; [|auto|destruct r; tauto]. unfold tail_prefix, after_exponent. destruct (opt_char (fun x => (aeqb x "e" || aeqb x "E")%bool) r) as [e r5]. destruct (opt_char (aeqb "-") r5) as [f r6]. repeat rewrite <- app_assoc. auto.
Qed.
Lemma tail_prefix_stops r : stops r -> tail_prefix r = [].
Proof.
  intros H. unfold tail_prefix. rewrite opt_none. 2: { destruct r as [|c r]; cbn in *; auto. destruct H as (_ & _ & N1 & N2 & _). apply orb_false_iff. split; apply aeqb_neq; auto. }
  unfold after_exponent. rewrite opt_none. 2: { destruct r as [|c r]; cbn in *; auto. apply aeqb_neq. intros <-. tauto. }
  destruct r as [|c r]; auto. cbn [span]. destruct H as (-> & _). auto.
Qed.
Lemma after_exponent_int i r : int_text i -> stops r -> after_exponent (i ++ r) = i.
Proof.
  intros (ds & NE & D & [->| ->]) R; unfold after_exponent.
  - rewrite opt_none. 2: { destruct ds as [|d ds]; [congruence|]. cbn. apply digit_not; [apply D; cbn; auto|reflexivity]. }
    rewrite span_all; auto. destruct r; cbn in R; tauto.
  - cbn [app opt_char]. rewrite aeqb_refl. rewrite span_all; [auto|auto|destruct r; cbn in R; tauto].
Qed.
Lemma float_text_split s : float_text s -> exists m e, s = m ++ e /\ mantissa m /\ exponent_text e.
Proof.
  intros (sign & a & dot & b & e & -> & S1 & A & B & NE & D & E). exists (sign ++ a ++ dot ++ b), e. split; [repeat rewrite <- app_assoc; auto|]. split; auto. exists sign, a, dot, b. auto 10.
Qed.
Lemma number_prefix_float tok rest : float_text tok -> stops rest -> number_prefix (tok ++ rest) = tok.
Proof.
  intros F R. destruct (float_text_split _ F) as (m & e & -> & M & E). rewrite <- app_assoc. destruct E as [->|(c & i & -> & C & IT)].
  - cbn [app]. rewrite number_prefix_mantissa; auto; [|destruct rest; cbn in R; tauto]. rewrite tail_prefix_stops by auto. auto.
  - rewrite number_prefix_mantissa; auto; [|cbn; destruct C as [->| ->]; split; [reflexivity|discriminate|reflexivity|discriminate]]. f_equal. unfold tail_prefix. cbn [app]. rewrite opt_one by (destruct C as [->| ->]; reflexivity). cbn [app]. rewrite after_exponent_int; auto.
Qed.
Lemma float_value_ok v x : float_value v x -> OutcarModel.to_float (number_prefix v) = Ok x.
Proof. intros (tok & rest & -> & F & R & P). rewrite number_prefix_float by auto. unfold OutcarModel.to_float. rewrite P. auto. Qed.
(** reading a text of number characters *)
Definition num_char (c : ascii) : bool := is_digit c || aeqb c "." || aeqb c "-" || aeqb c "+" || aeqb c "e" || aeqb c "E".
Lemma num_sweep (P : ascii -> bool) l : forallb (fun c => implb (num_char c) (P c)) all_ascii = true -> forallb num_char l = true -> forallb P l = true.
Proof. intros H. rewrite !forallb_forall. intros Hl x Hx. pose proof (forall_ascii _ H x) as K. cbv beta in K. rewrite (Hl x Hx) in K. exact K. Qed.
Lemma digits_alldigits a : digits a -> PyNumLemmas.alldigits a = true.
Proof. intros D. unfold PyNumLemmas.alldigits. apply forallb_forall. auto. Qed.
Lemma digits_num a : digits a -> forallb num_char a = true.
Proof. intros D. apply forallb_forall. intros c C. unfold num_char. rewrite (D c C). reflexivity. Qed.
Lemma parse_dec_mantissa m r : mantissa m -> forallb num_char r = true -> match r with [] => True | c :: _ => is_digit c = false /\ (c <> "."%char) end ->
  exists neg n k, parse_dec (m ++ r) = match parse_exp r with Some e => Some (DFin neg n (e - k)) | None => None end.
Proof.
  intros (sign & a & dot & b & -> & S1 & A & B & NE & D) F R. unfold parse_dec.
  assert (forallb num_char ((sign ++ a ++ dot ++ b) ++ r) = true) as FN.
  { rewrite !forallb_app, (digits_num a), (digits_num b), F by auto. destruct S1 as [->| ->], D as [->|[-> ->]]; reflexivity. }
  rewrite strip_nospace by (apply (num_sweep (fun c => negb (is_space c))); [vm_compute; reflexivity|exact FN]). rewrite PyNumLemmas.strip_us_none by (apply (num_sweep (fun c => negb (aeqb c "_"))); [vm_compute; reflexivity|exact FN]).
  repeat rewrite <- app_assoc. set (d := a ++ dot ++ b ++ r).
  assert (match d with [] => False | c :: _ => (is_digit c || aeqb c ".")%bool = true end) as HD.
  { unfold d. destruct a as [|x a]; cbn [app]; [|rewrite (A x) by (cbn; auto); reflexivity]. destruct D as [->|[-> ->]]; [reflexivity|destruct NE; congruence]. }
  assert (exists neg, take_sign (sign ++ d) = (neg, d)) as [neg ->].
  { destruct S1 as [->| ->]; [|eexists; reflexivity]. exists false. cbn [app]. clearbody d. destruct d as [|c d]; [destruct HD|]. cbn [take_sign]. destruct (aeqb c "-") eqn:E1; [apply aeqb_eq in E1; subst c; discriminate|]. destruct (aeqb c "+") eqn:E2; [apply aeqb_eq in E2; subst c; discriminate|]. auto. }
  exists neg. unfold parse_unsigned. destruct (PyNumLemmas.head_not_special d) as [-> [-> ->]]; [auto|]. cbn [orb]. unfold d.
  rewrite PyNumLemmas.span_digits_app; [|apply digits_alldigits; auto|destruct D as [->|[-> ->]]; [reflexivity|]; cbn [app]; destruct r as [|c r]; [reflexivity|]; cbn; destruct R as [-> _]; reflexivity].
  match goal with |- context [let (_, _) := ?M in _] => assert (M = (b, r)) as -> end.
  { destruct D as [->|[-> ->]]; cbn [app].
    - rewrite aeqb_refl. apply PyNumLemmas.span_digits_app; [apply digits_alldigits; auto|]. destruct r as [|c r]; [reflexivity|]. cbn. destruct R as [-> _]. reflexivity.
    - destruct r as [|c r]; auto. destruct (aeqb c ".") eqn:E; auto. apply aeqb_eq in E. tauto. }
  destruct (a ++ b) as [|x l] eqn:E; [apply app_eq_nil in E as [-> ->]; destruct NE; congruence|]. eexists _, _. reflexivity.
Qed.
Lemma parse_exp_text e : exponent_text e -> exists z, parse_exp e = Some z.
Proof.
  intros [->|(c & i & -> & C & (ds & NE & D & I1))]; [eexists; reflexivity|]. unfold parse_exp. assert ((aeqb c "e" || aeqb c "E")%bool = true) as -> by (destruct C as [->| ->]; reflexivity).
  assert (exists neg, take_sign i = (neg, ds)) as [neg ->].
  { destruct I1 as [->| ->]; [|eexists; reflexivity]. destruct ds as [|d ds]; [congruence|]. exists false. cbn [take_sign]. rewrite (aeqb_sym d "-"), (aeqb_sym d "+"). rewrite !(digit_not d) by (try apply D; cbn; auto). auto. }
  rewrite PyNumLemmas.span_digits_all by (apply digits_alldigits; auto). destruct ds; [congruence|]. eauto.
Qed.
Lemma exponent_num e : exponent_text e -> forallb num_char e = true /\ match e with [] => True | c :: _ => is_digit c = false /\ (c <> "."%char) end.
Proof.
  intros [->|(c & i & -> & C & (ds & NE & D & I1))]; [auto|]. split.
  - cbn [forallb]. apply andb_true_iff. split; [destruct C as [->| ->]; reflexivity|]. destruct I1 as [->| ->]; [apply digits_num; auto|cbn; apply digits_num; auto].
  - destruct C as [->| ->]; split; [reflexivity|discriminate|reflexivity|discriminate].
Qed.
Lemma float_text_reads s : float_text s -> exists x, parse_float s = Some x.
Proof.
  intros F. destruct (float_text_split _ F) as (m & e & -> & M & E). destruct (exponent_num _ E) as [E1 E2]. destruct (parse_dec_mantissa m e M E1 E2) as (neg & n & k & P). destruct (parse_exp_text _ E) as [z Z1]. rewrite Z1 in P. unfold parse_float. rewrite P. cbn. eauto.
Qed.
(** a mantissa followed by a bare exponent letter is not a number *)
Lemma bare_exponent m c : mantissa m -> (c = "e" \/ c = "E")%char -> parse_float (m ++ [c]) = None.
Proof.
  intros M C. destruct (parse_dec_mantissa m [c] M) as (neg & n & k & P); [destruct C as [->| ->]; reflexivity|destruct C as [->| ->]; split; [reflexivity|discriminate|reflexivity|discriminate]|]. unfold parse_float. rewrite P. destruct C as [->| ->]; reflexivity.
Qed.
(** ** Numbers among words *)
Lemma letters_ok w : isalpha w = true <-> letters w.
Proof.
  unfold letters, isalpha. assert (forall c, is_alpha c = true <-> letter c) as K. { intros c. unfold is_alpha, letter. rewrite !orb_true_iff, !andb_true_iff, !N.leb_le, !N.eqb_eq. lia. }
  destruct w as [|c w]; [split; [discriminate|intros [H _]; congruence]|]. rewrite forallb_forall. split.
  - intros H. split; [discriminate|]. intros x X. apply K. auto.
  - intros [_ H] x X. apply K. auto.
Qed.
Lemma word_numbers_ok ws l : mapM OutcarModel.to_float (filter (fun w => negb (isalpha w)) ws) = Ok l <-> word_numbers ws l.
Proof.
  revert l. induction ws as [|w ws IH]; intros l; cbn [filter mapM].
  - split; [intros H; apply Ok_inj' in H; subst; constructor|inversion 1; auto].
  - destruct (isalpha w) eqn:E; cbn [negb].
    + rewrite IH. apply letters_ok in E. split; [constructor; auto|]. inversion 1; subst; auto. contradiction.
    + assert (~ letters w) as NL by (rewrite <- letters_ok; congruence). cbn [mapM]. unfold OutcarModel.to_float at 1. split.
      * intros H. apply bind_ok in H as [x [X H]]. apply bind_ok in H as [xs [XS H]]. apply Ok_inj' in H. subst l. destruct (parse_float w) as [y|] eqn:P; [|discriminate]. cbn in X. apply Ok_inj' in X. subst y. apply wn_number; auto. apply IH. auto.
      * inversion 1 as [|w' ws' xs' L W|w' x ws' xs N P W]; subst; [contradiction|]. rewrite P. cbn [of_option bind]. apply IH in W. rewrite W. auto.
Qed.
(** ** The dictionary *)
Lemma kind_documented key : match kind_of key with
  | Some KText => exists s, key = lit s /\ documented s PText | Some KFlag => exists s, key = lit s /\ documented s PFlag | Some KInt => exists s, key = lit s /\ documented s PInt
  | Some KFloat => exists s, key = lit s /\ documented s PFloat | Some KFloats => exists s, key = lit s /\ documented s PFloats | None => forall s ty, key = lit s -> ~ documented s ty end.
Proof.
  unfold kind_of, parameters. cbn [map fst snd]. cbn [dget].
  repeat match goal with |- context [if seqb ?a ?b then _ else _] => destruct (seqb a b) eqn:?H; [match goal with H : seqb _ _ = true |- _ => apply seqb_eq in H end; eexists; split; [eassumption|cbn; tauto]|] end.
  intros s ty -> D. destruct ty; cbn in D; repeat destruct D as [<-|D]; try (destruct D); try subst s; match goal with H : seqb ?x ?x = false |- _ => rewrite seqb_refl in H; discriminate end.
Qed.

Lemma store_absent kvs d0 d key : foldM store kvs d0 = Ok d -> (forall v, ~ In (key, v) kvs) -> dget key d = dget key d0.
Proof.
  revert d0. induction kvs as [|[k v] kvs IH]; intros d0 H N; cbn [foldM] in H; [apply Ok_inj' in H; subst; auto|]. apply bind_ok in H as [d1 [H1 H2]]. rewrite (IH _ H2) by (intros v' X; apply (N v'); cbn; auto).
  unfold store in H1. cbn [fst snd] in H1. destruct (kind_of k) as [kd|]; [|apply Ok_inj' in H1; subst; auto]. apply bind_ok in H1 as [x [X H1]]. apply Ok_inj' in H1. subst d1. apply dget_dset_other. intros ->. apply (N v). cbn. auto.
Qed.
Lemma store_last kvs d0 d key v kd : foldM store kvs d0 = Ok d -> last_value kvs key v -> kind_of key = Some kd -> exists x, convert kd v = Ok x /\ dget key d = Some x.
Proof.
  intros H (b & a & -> & L) K. rewrite foldM_app in H. apply bind_ok in H as [d1 [H1 H]]. cbn [foldM] in H. apply bind_ok in H as [d2 [H2 H]]. rewrite (store_absent _ _ _ _ H L). unfold store in H2. cbn [fst snd] in H2. rewrite K in H2. apply bind_ok in H2 as [x [X H2]]. apply Ok_inj' in H2. subst d2. exists x. split; auto. apply dget_dset_same.
Qed.
Lemma store_unknown kvs d0 d key : foldM store kvs d0 = Ok d -> kind_of key = None -> dget key d = dget key d0.
Proof.
  intros H N. revert d0 H. induction kvs as [|[k v] kvs IH]; intros d0 H; cbn [foldM] in H; [apply Ok_inj' in H; subst; auto|]. apply bind_ok in H as [d1 [H1 H2]]. rewrite (IH _ H2). unfold store in H1. cbn [fst snd] in H1. destruct (kind_of k) as [kd|] eqn:K; [|apply Ok_inj' in H1; subst; auto]. apply bind_ok in H1 as [x [X H1]]. apply Ok_inj' in H1. subst d1. apply dget_dset_other. congruence.
Qed.
Lemma store_all kvs d0 : (forall k v kd, In (k, v) kvs -> kind_of k = Some kd -> exists x, convert kd v = Ok x) -> exists d, foldM store kvs d0 = Ok d.
Proof.
  revert d0. induction kvs as [|[k v] kvs IH]; intros d0 H; cbn [foldM]; [eauto|]. assert (exists d1, store d0 (k, v) = Ok d1) as [d1 ->].
  { unfold store. cbn [fst snd]. destruct (kind_of k) as [kd|] eqn:K; [|eauto]. destruct (H k v kd (or_introl eq_refl) K) as [x ->]. cbn. eauto. }
  cbn [bind]. apply IH. intros k' v' kd' X. apply H. cbn. auto.
Qed.
Lemma store_ok_all kvs d0 d k v kd : foldM store kvs d0 = Ok d -> In (k, v) kvs -> kind_of k = Some kd -> exists x, convert kd v = Ok x.
Proof.
  revert d0. induction kvs as [|[k' v'] kvs IH]; intros d0 H X K; [destruct X|]. cbn [foldM] in H. apply bind_ok in H as [d1 [H1 H2]]. destruct X as [X|X]; [|eauto]. injection X as -> ->. unfold store in H1. cbn [fst snd] in H1. rewrite K in H1. apply bind_ok in H1 as [x [X H1]]. eauto.
Qed.
Lemma last_or_none (kvs : list (str * str)) key : (exists v, last_value kvs key v) \/ forall v, ~ In (key, v) kvs.
Proof.
  induction kvs as [|[k v] kvs IH]; [right; intros v []|]. destruct IH as [(v' & b & a & -> & L)|N]; [left; exists v', ((k, v) :: b), a; auto|].
  destruct (seqb k key) eqn:E; [apply seqb_eq in E; subst k; left; exists v, [], kvs; auto|]. right. intros v' [X|X]; [injection X as -> _; rewrite seqb_refl in E; discriminate|]. eapply N; eauto.
Qed.
