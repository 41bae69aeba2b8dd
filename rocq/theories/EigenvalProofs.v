(** Proofs about the EIGENVAL reader. *)
From Coq Require Import Ascii String List NArith ZArith Bool Lia.
From Verif Require Import PyBase PyStrLemmas PyLines PyNum UtilsModel LineModel EigenvalModel EigenvalSpec DoscarProofs StreamConfig.
Import ListNotations.
Local Open Scope list_scope.

(** ** Lines as a file gives them: all but the last end with a newline *)
Inductive shaped : list str -> Prop :=
| sh_nil : shaped []
| sh_last w : w <> [] -> nochar nl w = true -> shaped [w]
| sh_line w ls : nochar nl w = true -> shaped ls -> shaped ((w ++ [nl]) :: ls).
Lemma readlines_shaped t : shaped (readlines t).
Proof.
  induction t as [|c t IH]; cbn [readlines]; [constructor|]. destruct (aeqb c nl) eqn:E.
  - apply aeqb_eq in E. subst c. apply (sh_line []); auto.
  - assert (nochar nl [c] = true) as NC by (cbn; apply aeqb_neq in E; rewrite andb_true_r; apply negb_true_iff, aeqb_neq; congruence).
    inversion IH as [|w W1 W2|w ls W1 W2]; subst.
    + constructor; [discriminate|]. auto.
    + constructor; [discriminate|]. change (c :: w) with ([c] ++ w). rewrite nochar_app, NC. auto.
    + change (c :: w ++ [nl]) with ((c :: w) ++ [nl]). constructor; auto. change (c :: w) with ([c] ++ w). rewrite nochar_app, NC. auto.
Qed.
Lemma shaped_skipn n ls : shaped ls -> shaped (skipn n ls).
Proof. revert ls. induction n as [|n IH]; intros ls H; auto. destruct H; cbn [skipn]; auto; try constructor. destruct n; constructor. Qed.

(** ** Groups of lines *)
Definition blankb (l : str) : bool := is_nil (split_ws l).
Definition terminated (l : str) : bool := match rev l with c :: _ => aeqb c nl | [] => false end.
Definition separator (l : str) : bool := (blankb l && terminated l)%bool.
Definition words1 (l : str) : list (list str) := match split_ws l with [] => [] | ws => [ws] end.
Definition next_separates (ls : list str) : bool := match ls with [] => false | l :: _ => separator l end.
Fixpoint groups (skipping : bool) (ls : list str) : list (list (list str)) :=
  match ls with
  | [] => [[]]
  | l :: r => if (skipping && separator l)%bool then groups true r
              else if next_separates r then words1 l :: groups true r
              else match groups false r with [] => [words1 l] | g :: gs => (words1 l ++ g) :: gs end
  end.
Lemma space_nl : is_space nl = true. Proof. reflexivity. Qed.
Lemma blank_iff l : blankb l = true <-> forallb is_space l = true.
Proof.
  unfold blankb. induction l as [|c l IH]; [cbn; tauto|]. cbn [split_ws forallb]. destruct (is_space c); auto. cbn [andb]. split; [|discriminate].
  destruct l as [|c' l]; [discriminate|]. destruct (is_space c'); [discriminate|]. destruct (split_ws (c' :: l)); discriminate.
Qed.
Lemma last_newline_line w r : nochar nl w = true -> nobreak w = true -> last_newline (w ++ nl :: r) =
  if forallb is_space w then Some (length w + match last_newline r with Some k => S k | None => 1 end) else None.
Proof.
  induction w as [|c w IH]; intros N B; cbn [app last_newline forallb length].
  - change (is_space nl) with true. cbv iota. destruct (last_newline r); auto.
  - cbn [nochar nobreak forallb] in N, B. apply andb_true_iff in N as [N1 N2]. apply andb_true_iff in B as [B1 B2]. rewrite IH by auto. destruct (is_space c); auto. destruct (forallb is_space w); auto. cbn [andb].
    assert (is_newline c = false) as ->; auto. unfold is_newline. destruct (aeqb c cr) eqn:E1; [apply aeqb_eq in E1; subst c; discriminate|]. destruct (aeqb c nl) eqn:E2; [apply aeqb_eq in E2; subst c; discriminate|]. auto.
Qed.
Lemma last_newline_end w : nobreak w = true -> last_newline w = None.
Proof.
  induction w as [|c w IH]; intros B; cbn [last_newline]; auto. cbn [nobreak forallb] in B. apply andb_true_iff in B as [B1 B2]. rewrite IH by auto. destruct (is_space c); auto.
  assert (is_newline c = false) as ->; auto. unfold is_newline. destruct (aeqb c cr) eqn:E1; [apply aeqb_eq in E1; subst c; discriminate|]. destruct (aeqb c nl) eqn:E2; [apply aeqb_eq in E2; subst c; discriminate|]. auto.
Qed.
Fixpoint lead (ls : list str) : nat := match ls with [] => 0 | l :: r => if separator l then length l + lead r else 0 end.
Definition clean (ls : list str) : Prop := shaped ls /\ newlines_only ls.
Lemma clean_tl l ls : clean (l :: ls) -> clean ls.
Proof. intros [A B]. split; [inversion A; auto; constructor|]. intros x c X. apply B. right. auto. Qed.
Lemma nobreak_of w : nochar nl w = true -> (forall c, In c w -> is_break c = true -> c = nl) -> nobreak w = true.
Proof.
  intros N H. unfold nobreak. apply forallb_forall. intros c C. destruct (is_break c) eqn:E; auto. exfalso. rewrite (H c C E) in C. unfold nochar in N. rewrite forallb_forall in N. specialize (N nl C). vm_compute in N. discriminate.
Qed.
Lemma clean_head l ls : clean (l :: ls) -> (exists w, l = w ++ [nl] /\ nochar nl w = true /\ nobreak w = true) \/ (l <> [] /\ nochar nl l = true /\ nobreak l = true /\ ls = []).
Proof.
  intros [A B]. inversion A as [|w W1 W2|w ls' W1 W2]; subst.
  - right. repeat split; auto. apply nobreak_of; auto. intros c C. apply (B l); auto. left. auto.
  - left. exists w. repeat split; auto. apply nobreak_of; auto. intros c C. apply (B (w ++ [nl])); [left; auto|]. apply in_or_app. auto.
Qed.
Lemma separator_line w : separator (w ++ [nl]) = forallb is_space w.
Proof.
  unfold separator, terminated. rewrite rev_app_distr. cbn [rev app]. rewrite aeqb_refl, andb_true_r. destruct (blankb (w ++ [nl])) eqn:E.
  - apply blank_iff in E. rewrite forallb_app in E. apply andb_true_iff in E as [E _]. auto.
  - destruct (forallb is_space w) eqn:F; auto. assert (blankb (w ++ [nl]) = true) by (apply blank_iff; rewrite forallb_app, F; reflexivity). congruence.
Qed.
Lemma separator_last w : nochar nl w = true -> separator w = false.
Proof.
  intros N. unfold separator, terminated. destruct (rev w) as [|c r] eqn:E; [apply andb_false_r|]. assert (In c w) as C by (apply in_rev; rewrite E; left; auto). unfold nochar in N. rewrite forallb_forall in N. specialize (N c C).
  rewrite <- negb_true_iff. destruct (aeqb c nl) eqn:X; [|rewrite andb_false_r; auto]. apply aeqb_eq in X. subst c. vm_compute in N. discriminate.
Qed.
Lemma last_newline_lines ls : clean ls -> last_newline (concat ls) = if next_separates ls then Some (lead ls) else None.
Proof.
  induction ls as [|l ls IH]; intros C; auto. pose proof (IH (clean_tl _ _ C)) as IH'. cbn [concat next_separates lead]. destruct (clean_head _ _ C) as [(w & -> & N & B)|(NE & N & B & ->)].
  - rewrite <- app_assoc. cbn [app]. rewrite last_newline_line by auto. rewrite separator_line. destruct (forallb is_space w); auto. f_equal. rewrite IH', app_length. cbn [length].
    destruct ls as [|x ls]; cbn [next_separates lead]; [lia|]. destruct (separator x); lia.
  - cbn [concat]. rewrite app_nil_r, last_newline_end, separator_last; auto.
Qed.
Lemma split_empty_skip k t r : length t = k -> split_empty k (t ++ r) = split_empty 0 r.
Proof. revert t. induction k as [|k IH]; intros [|c t] H; try discriminate; auto. cbn [app split_empty]. apply IH. cbn in H. lia. Qed.
Lemma split_empty_word w r : nobreak w = true -> split_empty 0 (w ++ r) = match split_empty 0 r with [] => [w] | x :: xs => (w ++ x) :: xs end.
Proof.
  induction w as [|c w IH]; intros B; cbn [app].
  - assert (forall k t, split_empty k t <> []) as NN. { intros k t. revert k. induction t as [|c t IH']; intros k; cbn; [discriminate|]. destruct k; [|auto]. destruct (if is_newline c then last_newline t else None); [discriminate|]. destruct (split_empty 0 t); discriminate. }
    destruct (split_empty 0 r) eqn:E; auto. exfalso. eapply NN; eauto.
  - cbn [nobreak forallb] in B. apply andb_true_iff in B as [B1 B2]. cbn [split_empty].
    assert (is_newline c = false) as ->. { unfold is_newline. destruct (aeqb c cr) eqn:E1; [apply aeqb_eq in E1; subst c; discriminate|]. destruct (aeqb c nl) eqn:E2; [apply aeqb_eq in E2; subst c; discriminate|]. auto. }
    rewrite IH by auto. destruct (split_empty 0 r); auto.
Qed.
Lemma block_words_line w x : nobreak w = true -> block_words (w ++ nl :: x) = words1 w ++ block_words x.
Proof. intros B. unfold block_words. rewrite splitlines_app by auto. cbn [map filter]. unfold words1. destruct (split_ws w); auto. Qed.
Lemma block_words_last w : nobreak w = true -> block_words w = words1 w.
Proof. intros B. destruct w as [|c w]; [reflexivity|]. unfold block_words. rewrite splitlines_last by (auto; discriminate). cbn [map filter]. unfold words1. destruct (split_ws (c :: w)); auto. Qed.
Lemma words1_nl w : words1 (w ++ [nl]) = words1 w.
Proof. unfold words1. rewrite split_ws_nl. auto. Qed.
(** the lines after the separators that come first *)
Fixpoint rest_of (ls : list str) : list str := match ls with [] => [] | l :: r => if separator l then rest_of r else ls end.
Lemma lead_rest ls : exists t, length t = lead ls /\ concat ls = t ++ concat (rest_of ls).
Proof.
  induction ls as [|l ls IH]; cbn [lead rest_of concat]; [exists []; auto|]. destruct (separator l); [|exists []; auto]. destruct IH as [t [A B]]. exists (l ++ t). rewrite app_length, A, B, app_assoc. auto.
Qed.
Lemma groups_rest ls : groups true ls = groups false (rest_of ls).
Proof. induction ls as [|l ls IH]; auto. cbn [rest_of]. destruct (separator l) eqn:E; [cbn [groups]; rewrite E; auto|]. cbn [groups]. rewrite E. auto. Qed.
Lemma clean_rest ls : clean ls -> clean (rest_of ls).
Proof. induction ls as [|l ls IH]; intros C; auto. cbn [rest_of]. destruct (separator l); auto. apply IH. eapply clean_tl; eauto. Qed.
Lemma rest_length ls : length (rest_of ls) <= length ls.
Proof. induction ls as [|l ls IH]; cbn; auto. destruct (separator l); cbn; lia. Qed.
Lemma groups_ok ls : clean ls -> map block_words (split_empty 0 (concat ls)) = groups false ls.
Proof.
  remember (length ls) as n. assert (length ls <= n) as L by lia. clear Heqn. revert ls L. induction n as [|n IH]; intros ls L C.
  - destruct ls; [reflexivity|cbn in L; lia].
  - destruct ls as [|l ls]; [reflexivity|]. cbn [length] in L. pose proof (clean_tl _ _ C) as C'. cbn [concat groups andb]. destruct (clean_head _ _ C) as [(w & -> & N & B)|(NE & N & B & ->)].
    + rewrite <- app_assoc. cbn [app]. rewrite split_empty_word by auto. cbn [split_empty]. change (is_newline nl) with true. cbv iota. rewrite last_newline_lines by auto. destruct (next_separates ls) eqn:S1.
      * destruct (lead_rest ls) as [t [T1 T2]]. rewrite T2, split_empty_skip by auto. cbn [map]. rewrite app_nil_r, block_words_last, words1_nl by auto. f_equal. rewrite groups_rest. apply IH; [pose proof (rest_length ls); lia|]. apply clean_rest. auto.
      * rewrite <- IH by (auto; lia). destruct (split_empty 0 (concat ls)) as [|x xs]; cbn [map].
        -- rewrite block_words_line by auto. cbn. rewrite app_nil_r, words1_nl. auto.
        -- rewrite block_words_line, words1_nl by auto. auto.
    + cbn [concat next_separates groups]. rewrite app_nil_r, <- (app_nil_r l) at 1. rewrite split_empty_word by auto. cbn [split_empty map]. rewrite app_nil_r, block_words_last by auto. rewrite app_nil_r. auto.
Qed.

(** ** Groups and paragraphs *)
Lemma blankb_ok l : blankb l = true <-> blank l.
Proof. unfold blankb, blank. destruct (split_ws l); cbn; split; congruence. Qed.
Lemma separator_blank l : separator l = true -> blank l.
Proof. unfold separator. rewrite andb_true_iff. intros [H _]. apply blankb_ok. auto. Qed.
Lemma paragraphs_blank l ls ps : blank l -> paragraphs ls ps -> paragraphs (l :: ls) ps.
Proof. intros B H. inversion H; subst; [constructor; constructor; auto|]. rewrite app_comm_cons. constructor; auto. Qed.
Definition full (gs : list (list (list str))) : Prop := Forall (fun g => g <> []) gs.
Lemma words1_blank l : blank l -> words1 l = [].
Proof. unfold blank, words1. intros ->. auto. Qed.
Lemma words1_word l : ~ blank l -> words1 l = [split_ws l].
Proof. unfold blank, words1. destruct (split_ws l); [congruence|auto]. Qed.
Lemma groups_nonempty s ls : groups s ls <> [].
Proof. revert s. induction ls as [|l ls IH]; intros s; cbn [groups]; [discriminate|]. destruct (s && separator l)%bool; auto. destruct (next_separates ls); [discriminate|]. destruct (groups false ls); discriminate. Qed.
Lemma groups_paragraphs ls : clean ls ->
  (next_separates ls = false -> full (tl (groups false ls)) ->
     exists p rest ps, ls = p ++ rest /\ Forall (fun l => ~ blank l) p /\ match rest with [] => True | l :: _ => blank l end /\ paragraphs rest ps /\ groups false ls = map split_ws p :: map (map split_ws) ps) /\
  (full (groups true ls) -> exists ps, paragraphs ls ps /\ groups true ls = map (map split_ws) ps).
Proof.
  induction ls as [|l ls IH]; intros C.
  - split; [intros _ _; exists [], [], []; cbn; repeat split; auto; constructor; auto|]. intros F. inversion F as [|? ? X]. congruence.
  - specialize (IH (clean_tl _ _ C)) as [I1 I2].
    assert (next_separates (l :: ls) = false -> full (tl (groups false (l :: ls))) ->
     exists p rest ps, l :: ls = p ++ rest /\ Forall (fun l => ~ blank l) p /\ match rest with [] => True | l :: _ => blank l end /\ paragraphs rest ps /\ groups false (l :: ls) = map split_ws p :: map (map split_ws) ps) as P1.
    { cbn [next_separates]. intros SE F. destruct (blankb l) eqn:BL.
      - apply blankb_ok in BL. destruct (clean_head _ _ C) as [(w & -> & N & B)|(NE & N & B & ->)].
        + exfalso. rewrite separator_line in SE. assert (blankb (w ++ [nl]) = true) as X by (apply blankb_ok; auto). apply blank_iff in X. rewrite forallb_app in X. apply andb_true_iff in X as [X _]. congruence.
        + exists [], [l], []. cbn [app groups next_separates map]. rewrite (words1_blank _ BL). repeat split; auto. constructor. auto.
      - assert (~ blank l) as NB by (intros X; apply blankb_ok in X; congruence). cbn [groups andb] in *. destruct (next_separates ls) eqn:NS.
        + cbn [tl] in F. destruct (I2 F) as [ps [A B]]. exists [l], ls, ps. repeat split; auto. * destruct ls as [|x ls]; [exact Logic.I|]. apply separator_blank. auto. * rewrite B, words1_word; auto.
        + destruct (groups false ls) as [|g gs] eqn:G; [exfalso; eapply groups_nonempty; eauto|]. cbn [tl] in F, I1. destruct (I1 eq_refl F) as (p & rest & ps & -> & A & B & D & E). exists (l :: p), rest, ps. cbn [app map]. repeat split; auto.
          rewrite (words1_word _ NB). inversion E. auto. }
    split; auto. intros F. destruct (separator l) eqn:SE.
    + assert (groups true (l :: ls) = groups true ls) as EG by (cbn [groups andb]; rewrite SE; auto). rewrite EG in *. destruct (I2 F) as [ps [A B]]. exists ps. split; auto. apply paragraphs_blank; auto. apply separator_blank. auto.
    + assert (groups true (l :: ls) = groups false (l :: ls)) as EG by (cbn [groups andb]; rewrite SE; auto). rewrite EG in *.
      assert (full (tl (groups false (l :: ls)))) as FT by (destruct (groups false (l :: ls)); [constructor|inversion F; auto]).
      destruct (P1 SE FT) as (p & rest & ps & A & B & D & E & G). exists (p :: ps). rewrite G in *. split; auto. rewrite A. apply (par_next []); auto. destruct p; [|discriminate]. inversion F as [|? ? X Y]. cbn in X. congruence.
Qed.
Lemma groups_full ls : clean ls -> ls <> [] -> ~ blank (last ls []) -> full (groups true ls) /\ (next_separates ls = false -> full (groups false ls)).
Proof.
  induction ls as [|l ls IH]; intros C NE LB; [congruence|]. destruct ls as [|l2 ls].
  - cbn [last] in LB. assert (separator l = false) as SE by (destruct (separator l) eqn:X; auto; apply separator_blank in X; contradiction). cbn [groups andb next_separates]. rewrite SE. cbn [andb]. rewrite words1_word by auto. split; [|intros _]; constructor; try constructor; discriminate.
  - destruct (IH (clean_tl _ _ C)) as [I1 I2]; [discriminate|auto|]. set (r := l2 :: ls) in *.
    assert (next_separates (l :: r) = false -> full (groups false (l :: r))) as P.
    { cbn [next_separates]. intros SE. assert (~ blank l) as NB.
      { intros B. destruct (clean_head _ _ C) as [(w & -> & N & _)|(_ & _ & _ & X)]; [|discriminate]. rewrite separator_line in SE. apply blankb_ok, blank_iff in B. rewrite forallb_app in B. apply andb_true_iff in B as [B _]. congruence. }
      cbn [groups andb]. destruct (next_separates r) eqn:NS; [constructor; [rewrite words1_word by auto; discriminate|auto]|]. specialize (I2 eq_refl). destruct (groups false r); [constructor; [rewrite words1_word by auto; discriminate|constructor]|].
      inversion I2. subst. constructor; auto. rewrite words1_word by auto. discriminate. }
    split; auto. destruct (separator l) eqn:SE.
    + replace (groups true (l :: r)) with (groups true r); auto. cbn [groups andb]. rewrite SE. auto.
    + replace (groups true (l :: r)) with (groups false (l :: r)); [apply P; auto|]. cbn [groups andb]. rewrite SE. auto.
Qed.
Lemma groups_well_spaced ls : clean ls -> well_spaced ls -> full (groups false ls).
Proof.
  intros C [LB FS]. assert (ls <> []) as NE by (intros ->; apply LB; reflexivity). destruct (groups_full _ C NE LB) as [_ G]. destruct ls as [|l ls]; [congruence|]. cbn [next_separates] in G. destruct (separator l) eqn:SE; auto.
  destruct ls as [|l2 ls]; [exfalso; apply LB, separator_blank; auto|]. assert (separator l2 = false) as S2. { destruct (separator l2) eqn:X; auto. exfalso. apply FS. split; apply separator_blank; auto. }
  pose proof (clean_tl _ _ C) as C'. destruct (groups_full _ C') as [_ G2]; [discriminate|auto|]. cbn [next_separates] in G2. specialize (G2 S2). set (r := l2 :: ls) in *. cbn [groups andb]. assert (next_separates r = false) as -> by exact S2.
  rewrite (words1_blank l) by (apply separator_blank; auto). destruct (groups false r) eqn:X; [exfalso; eapply groups_nonempty; eauto|]. exact G2.
Qed.
Lemma first_groups ls : clean ls -> full (groups false ls) -> exists ps, paragraphs ls ps /\ groups false ls = map (map split_ws) ps.
Proof.
  intros C F. assert (forall ls, clean ls -> next_separates ls = false -> full (groups false ls) -> exists ps, paragraphs ls ps /\ groups false ls = map (map split_ws) ps) as P.
  { clear. intros ls C NS F. destruct (groups_paragraphs _ C) as [G _]. destruct (G NS) as (p & rest & ps & A & B & D & E & X). { destruct (groups false ls); [constructor|inversion F; auto]. }
    exists (p :: ps). split; auto. rewrite A. apply (par_next []); auto. rewrite X in F. inversion F. destruct p; [|discriminate]. cbn in *. congruence. }
  destruct (next_separates ls) eqn:NS; auto. destruct ls as [|l ls]; [discriminate|]. cbn [next_separates] in NS. pose proof (separator_blank _ NS) as BL. cbn [groups andb] in *. rewrite (words1_blank _ BL) in *. cbn [app] in *.
  destruct (next_separates ls) eqn:N2; [inversion F; congruence|]. destruct (groups false ls) as [|g gs] eqn:X; [exfalso; eapply groups_nonempty; eauto|]. destruct (P ls (clean_tl _ _ C) N2) as [ps [A B]]; [rewrite X; auto|].
  exists ps. split; [apply paragraphs_blank; auto|congruence].
Qed.
Fixpoint para (ls : list str) : list (list str) :=
  match ls with
  | [] => []
  | l :: r => if blankb l then para r else
      match r with [] => [[l]] | l' :: _ => if blankb l' then [l] :: para r else match para r with [] => [[l]] | p :: ps => (l :: p) :: ps end end
  end.
Lemma para_ok ls ps : paragraphs ls ps -> para ls = ps.
Proof.
  assert (forall bs r, Forall blank bs -> para (bs ++ r) = para r) as PB. { intros bs r H. induction H; auto. cbn [app para]. apply blankb_ok in H. rewrite H. auto. }
  induction 1 as [ls H|bs p rest ps B NE NB RB H IH].
  - rewrite <- (app_nil_r ls), PB; auto.
  - rewrite PB by auto. clear B. induction NB as [|l p L NB IHp]; [congruence|]. cbn [app para]. assert (blankb l = false) as -> by (destruct (blankb l) eqn:X; auto; apply blankb_ok in X; contradiction).
    destruct p as [|l2 p].
    + cbn [app]. destruct rest as [|x rest]; [cbn [para] in IH; subst ps; auto|]. apply blankb_ok in RB. rewrite RB. rewrite IH. auto.
    + cbn [app] in *. inversion NB as [|? ? L2 NB2]. subst. assert (blankb l2 = false) as -> by (destruct (blankb l2) eqn:X; auto; apply blankb_ok in X; contradiction). rewrite IHp by discriminate. auto.
Qed.
Lemma paragraphs_fun ls ps ps' : paragraphs ls ps -> paragraphs ls ps' -> ps = ps'.
Proof. intros A B. apply para_ok in A, B. congruence. Qed.

(** ** The arrays *)
Lemma set_nth_length {A} n (x : A) l : length (set_nth n x l) = length l.
Proof. revert n. induction l as [|a l IH]; intros [|n]; cbn; auto. Qed.
Lemma nth_set_nth {A} n (x : A) l i : nth_error (set_nth n x l) i = if (i =? n) && (n <? length l) then Some x else nth_error l i.
Proof.
  revert n i. induction l as [|a l IH]; intros n i; cbn [set_nth length].
  - assert (nth_error (@nil A) i = None) as -> by (destruct i; auto). change (n <? 0) with false. rewrite andb_false_r. destruct n, i; auto.
  - destruct n as [|n], i as [|i]; cbn [nth_error set_nth]; try reflexivity. rewrite IH. cbn [Nat.eqb]. destruct (i =? n); auto.
Qed.
Lemma broadcast_ok n ws vs vs' : mapM to_float ws = Ok vs -> broadcast n vs = Ok vs' -> length vs' = n /\ forall j x, nth_error vs' j = Some x -> given n ws j x.
Proof.
  intros H B. unfold broadcast in B. pose proof (DoscarProofs.mapM_length _ _ _ H) as L. destruct (Nat.eqb_spec (length vs) n) as [E|E].
  - apply Ok_inj' in B. subst vs'. split; auto. intros j x J. destruct (mapM_nth _ _ _ _ _ H J) as [t [T1 T2]]. split; [subst n; apply nth_error_Some; congruence|]. left. split; [congruence|]. exists t. split; auto. apply to_float_ok. auto.
  - destruct vs as [|v [|]]; try discriminate. apply Ok_inj' in B. subst vs'. split; [apply repeat_length|]. intros j x J. assert (j < n) by (rewrite <- (repeat_length v n); apply nth_error_Some; congruence). split; auto.
    right. destruct ws as [|t [|]]; try discriminate. exists t. split; auto. cbn in H. destruct (to_float t) as [y|] eqn:T; [|discriminate]. cbn in H. apply Ok_inj' in H. injection H as ->. apply to_float_ok in T. apply nth_error_In in J. apply repeat_spec in J. congruence.
Qed.
Lemma given_fun n ws j x y : given n ws j x -> given n ws j y -> x = y.
Proof.
  intros [_ [[A (t & T1 & T2)]|(t & T1 & T2)]] [_ [[B (u & U1 & U2)]|(u & U1 & U2)]]; subst; cbn in *; try congruence.
  - destruct j; [|destruct j; discriminate]. cbn in T1. congruence.
  - destruct j; [|destruct j; discriminate]. cbn in U1. congruence.
Qed.
Definition names_w (nb : nat) (words : list str) (b : nat) : Prop :=
  exists w ws z, words = w :: ws /\ parse_int w = Some z /\ (z = Z.of_nat b + 1 \/ (z <= 0 /\ z = Z.of_nat b + 1 - Z.of_nat nb))%Z.
Lemma names_w_fun nb words b b' : b < nb -> b' < nb -> names_w nb words b -> names_w nb words b' -> b = b'.
Proof. intros L L' (w & ws & z & -> & A & B) (w' & ws' & z' & E & A' & B'). injection E as -> ->. assert (z = z') by congruence. subst z'. lia. Qed.
Lemma at3_shape a n1 n2 n3 s k b : shape3 a n1 n2 n3 -> s < n1 -> k < n2 -> b < n3 -> exists x, at3 a s k b x.
Proof.
  intros [H1 H2] S1 K1 B1. destruct (nth_error a s) as [p|] eqn:P; [|apply nth_error_None in P; lia]. destruct (H2 _ (nth_error_In _ _ P)) as [L1 L2]. destruct (nth_error p k) as [q|] eqn:Q; [|apply nth_error_None in Q; lia].
  pose proof (L2 _ (nth_error_In _ _ Q)). destruct (nth_error q b) as [x|] eqn:X; [|apply nth_error_None in X; lia]. exists x, p, q. auto.
Qed.
Lemma at3_bound a n1 n2 n3 s k b x : shape3 a n1 n2 n3 -> at3 a s k b x -> s < n1 /\ k < n2 /\ b < n3.
Proof.
  intros [H1 H2] (p & q & P & Q & X). destruct (H2 _ (nth_error_In _ _ P)) as [L1 L2]. pose proof (L2 _ (nth_error_In _ _ Q)) as L3.
  assert (s < length a) by (apply nth_error_Some; congruence). assert (k < length p) by (apply nth_error_Some; congruence). assert (b < length q) by (apply nth_error_Some; congruence). lia.
Qed.
Lemma set_band_ok ns k nk nb eig point eig' : shape3 eig ns nk nb -> k < nk -> set_band ns k nb eig point = Ok eig' ->
  shape3 eig' ns nk nb /\ exists b, b < nb /\ names_w nb point b /\
    forall s k' b' x, at3 eig' s k' b' x -> if (k' =? k) && (b' =? b) then given ns (firstn ns (tl point)) s x else at3 eig s k' b' x.
Proof.
  intros SH K H. unfold set_band in H. apply bind_ok in H as [w [W H]]. apply bind_ok in H as [z [Z1 H]]. apply to_int_ok in Z1. set (i := (if (z - 1 <? 0)%Z then Z.of_nat nb + (z - 1) else z - 1)%Z) in *.
  destruct ((i <? 0) || (Z.of_nat nb <=? i))%Z%bool eqn:RG; [discriminate|]. apply orb_false_iff in RG as [R1 R2]. apply Z.ltb_ge in R1. apply Z.leb_gt in R2.
  apply bind_ok in H as [vs [V1 H]]. apply bind_ok in H as [vs' [V2 H]]. apply Ok_inj' in H. destruct (broadcast_ok _ _ _ _ V1 V2) as [LV GV].
  set (bd := Z.to_nat i) in *.
  assert (forall s, nth_error eig' s = match nth_error eig s, nth_error vs' s with Some p, Some v => Some (set_nth k (set_nth bd v (nth k p [])) p) | _, _ => None end) as NE.
  { subst eig'. clear. revert vs'. induction eig as [|p eig IH]; intros [|v vs'] [|s]; cbn [combine map nth_error fst snd]; auto. destruct (nth_error eig s); auto. }
  destruct SH as [S1 S2]. split.
  - split; [subst eig'; rewrite map_length, combine_length; lia|]. intros p P. apply In_nth_error in P as [s P]. rewrite NE in P. destruct (nth_error eig s) as [p0|] eqn:P0; [|discriminate]. destruct (nth_error vs' s) as [v|]; [|discriminate]. inversion P. subst p. clear P.
    destruct (S2 _ (nth_error_In _ _ P0)) as [L1 L2]. split; [rewrite set_nth_length; auto|]. intros q Q. apply In_nth_error in Q as [j Q]. rewrite nth_set_nth in Q. destruct ((j =? k) && (k <? length p0)); [|apply L2; eapply nth_error_In; eauto].
    inversion Q. rewrite set_nth_length. apply L2. apply nth_In. lia.
  - exists bd. split; [unfold bd; lia|]. split.
    { destruct point as [|w' ws]; [discriminate|]. unfold py_nth in W. cbn in W. apply Ok_inj' in W. subst w'. exists w, ws, z. split; auto. split; auto. unfold bd, i in *. destruct (Z.ltb_spec (z - 1) 0); lia. }
    intros s k' b' x (p & q & P & Q & X). rewrite NE in P. destruct (nth_error eig s) as [p0|] eqn:P0; [|discriminate]. destruct (nth_error vs' s) as [v|] eqn:V; [|discriminate]. inversion P. subst p. clear P.
    destruct (S2 _ (nth_error_In _ _ P0)) as [L1 L2]. rewrite nth_set_nth in Q. assert (k <? length p0 = true) as KL by (apply Nat.ltb_lt; lia). rewrite KL, andb_true_r in Q. destruct (Nat.eqb_spec k' k) as [->|NK].
    + inversion Q. subst q. clear Q. rewrite nth_set_nth in X. assert (length (nth k p0 []) = nb) as LQ by (apply L2, nth_In; lia). assert (bd <? length (nth k p0 []) = true) as BL by (apply Nat.ltb_lt; unfold bd; lia). rewrite BL, andb_true_r in X.
      cbn [andb]. destruct (Nat.eqb_spec b' bd) as [->|NB]; [inversion X; subst v; auto|]. exists p0, (nth k p0 []). repeat split; auto. apply nth_error_nth'. lia.
    + cbn [andb]. exists p0, q. auto.
Qed.
Lemma set_bands_ok ns k nk nb rows eig eig' : shape3 eig ns nk nb -> k < nk -> foldM (set_band ns k nb) rows eig = Ok eig' ->
  shape3 eig' ns nk nb /\ (forall s k' b x, k' <> k -> at3 eig' s k' b x -> at3 eig s k' b x) /\
  forall s b x, at3 eig' s k b x ->
    (exists before row after, rows = before ++ row :: after /\ names_w nb row b /\ given ns (firstn ns (tl row)) s x /\ forall r, In r after -> ~ names_w nb r b) \/
    ((forall r, In r rows -> ~ names_w nb r b) /\ at3 eig s k b x).
Proof.
  intros SH K. revert eig SH. induction rows as [|row rows IH]; intros eig SH H; cbn [foldM] in H.
  - apply Ok_inj' in H. subst eig'. split; [exact SH|]. split; [auto|]. intros s b x X. right. split; auto.
  - apply bind_ok in H as [e1 [H1 H2]]. destruct (set_band_ok _ _ _ _ _ _ _ SH K H1) as [SH1 (bd & LB & NB & A)]. destruct (IH _ SH1 H2) as [SH2 [O P]]. split; auto. split.
    + intros s k' b x NK X. apply O in X; auto. apply A in X. apply Nat.eqb_neq in NK. rewrite NK in X. auto.
    + intros s b x X. destruct (at3_bound _ _ _ _ _ _ _ _ SH2 X) as [_ [_ BB]]. destruct (P _ _ _ X) as [(bf & r & af & E & R1 & R2 & R3)|[N Y]].
      * left. exists (row :: bf), r, af. subst rows. auto.
      * apply A in Y. rewrite Nat.eqb_refl in Y. cbn [andb] in Y. destruct (Nat.eqb_spec b bd) as [->|NE].
        -- left. exists [], row, rows. auto.
        -- right. split; auto. intros r [->|R]; auto. intros N'. apply NE. eapply names_w_fun; eauto.
Qed.
Definition block_said (ns nb : nat) (block : list (list str)) (kp : list float) (val : nat -> nat -> float -> Prop) : Prop :=
  exists first rows, block = first :: rows /\ length kp = 4 /\ (forall j x, nth_error kp j = Some x -> given 4 first j x) /\
    forall s b x, val s b x ->
      (exists before row after, rows = before ++ row :: after /\ names_w nb row b /\ given ns (firstn ns (tl row)) s x /\ forall r, In r after -> ~ names_w nb r b) \/
      ((forall r, In r rows -> ~ names_w nb r b) /\ x = zero).
Lemma read_blocks_ok ns nk nb blocks k t t' : shape3 (tb_eigenvalues t) ns nk nb -> length (tb_kpoints t) = nk ->
  read_blocks ns nk nb k t blocks = Ok t' ->
  (forall s k' b x, k <= k' -> at3 (tb_eigenvalues t) s k' b x -> x = zero) ->
  shape3 (tb_eigenvalues t') ns nk nb /\ length (tb_kpoints t') = nk /\ (blocks <> [] -> k + length blocks <= nk) /\
  (forall s k' b x, k' < k \/ k + length blocks <= k' -> at3 (tb_eigenvalues t') s k' b x -> at3 (tb_eigenvalues t) s k' b x) /\
  (forall k', k' < k \/ k + length blocks <= k' -> nth_error (tb_kpoints t') k' = nth_error (tb_kpoints t) k') /\
  forall i block, nth_error blocks i = Some block -> exists kp, nth_error (tb_kpoints t') (k + i) = Some kp /\ block_said ns nb block kp (fun s b x => at3 (tb_eigenvalues t') s (k + i) b x).
Proof.
  revert k t. induction blocks as [|block blocks IH]; intros k t SH LK H Z0; cbn [read_blocks] in H.
  - apply Ok_inj' in H. subst t'. repeat split; auto; try apply SH; auto; try congruence. intros [|i] block B; discriminate.
  - apply bind_ok in H as [t1 [H1 H2]]. unfold read_block in H1. destruct block as [|first rows]; [discriminate|]. apply bind_ok in H1 as [kpi [K1 H1]]. destruct (Nat.leb_spec nk k) as [|KL]; [discriminate|].
    apply bind_ok in H1 as [kp [K2 H1]]. apply bind_ok in H1 as [eig [E1 H1]]. apply Ok_inj' in H1. destruct (broadcast_ok _ _ _ _ K1 K2) as [LKP GKP]. destruct (set_bands_ok _ _ _ _ _ _ _ SH KL E1) as [SH1 [O P]].
    destruct (IH (S k) t1) as (A & B & C & D & E & F); [subst t1; auto|subst t1; cbn; rewrite set_nth_length; auto|auto| |].
    { subst t1. cbn [tb_eigenvalues]. intros s k' b x LE X. apply O in X; [|lia]. apply (Z0 s k' b x); auto. lia. }
    split; auto. split; auto. split; [intros _; cbn [length]; destruct blocks; [cbn; lia|specialize (C ltac:(discriminate)); cbn in *; lia]|]. cbn [length]. split; [|split].
    + intros s k' b x R X. apply D in X; [|lia]. subst t1. cbn [tb_eigenvalues] in X. apply O in X; auto. lia.
    + intros k' R. rewrite E by lia. subst t1. cbn [tb_kpoints]. rewrite nth_set_nth. destruct (Nat.eqb_spec k' k); [lia|]. auto.
    + intros [|i] block BI; cbn [nth_error] in BI.
      * inversion BI. subst block. rewrite Nat.add_0_r. exists kp. rewrite E by lia. split. { subst t1. cbn [tb_kpoints]. rewrite nth_set_nth, Nat.eqb_refl. assert (k <? length (tb_kpoints t) = true) as -> by (apply Nat.ltb_lt; lia). auto. }
        exists first, rows. split; auto. split; auto. split; auto. intros s b x X. apply D in X; [|lia]. subst t1. cbn [tb_eigenvalues] in X. destruct (P _ _ _ X) as [Q|[Q1 Q2]]; [left; auto|right]. split; auto. eapply Z0; [|eauto]. lia.
      * destruct (F _ _ BI) as [kp' [F1 F2]]. exists kp'. replace (k + S i) with (S k + i) by lia. auto.
Qed.
(** what can be read *)
Lemma readable_ok n ws : readable n ws -> exists vs vs', mapM to_float ws = Ok vs /\ broadcast n vs = Ok vs'.
Proof.
  intros [L F]. assert (exists vs, mapM to_float ws = Ok vs) as [vs V].
  { clear L. induction F as [|t ws T F [vs V]]; [exists []; auto|]. destruct (parse_float t) as [x|] eqn:X; [|congruence]. exists (x :: vs). cbn [mapM]. unfold to_float at 1. rewrite X. cbn [of_option bind]. rewrite V. auto. }
  exists vs. unfold broadcast. pose proof (DoscarProofs.mapM_length _ _ _ V) as LV. destruct (Nat.eqb_spec (length vs) n) as [E|E]; [eauto|]. destruct L as [L|L]; [lia|]. destruct vs as [|v [|]]; cbn in *; try lia. eauto.
Qed.
Lemma set_band_accepts ns k nb eig point b : b < nb -> names_w nb point b -> readable ns (firstn ns (tl point)) -> exists e, set_band ns k nb eig point = Ok e.
Proof.
  intros L (w & ws & z & -> & A & B) R. unfold set_band, py_nth, to_int. cbn [nth_error of_option bind]. rewrite A. cbn [of_option bind]. set (i := (if (z - 1 <? 0)%Z then Z.of_nat nb + (z - 1) else z - 1)%Z).
  assert (((i <? 0) || (Z.of_nat nb <=? i))%Z%bool = false) as ->. { apply orb_false_iff. unfold i. destruct (Z.ltb_spec (z - 1) 0); split; [apply Z.ltb_ge|apply Z.leb_gt|apply Z.ltb_ge|apply Z.leb_gt]; lia. }
  destruct (readable_ok _ _ R) as (vs & vs' & V & V'). rewrite V. cbn [bind]. rewrite V'. cbn [bind]. eauto.
Qed.
Lemma read_blocks_accepts ns nk nb ps k t : k + length ps <= nk -> Forall (readable_block ns nb) ps -> exists t', read_blocks ns nk nb k t (map (map split_ws) ps) = Ok t'.
Proof.
  revert k t. induction ps as [|p ps IH]; intros k t L F; cbn [map read_blocks]; [eauto|]. inversion F as [|? ? (first & rows & -> & R1 & R2) F']. subst. cbn [map length] in *. unfold read_block. destruct (readable_ok _ _ R1) as (vs & vs' & V & V'). rewrite V. cbn [bind].
  destruct (Nat.leb_spec nk k); [lia|]. rewrite V'. cbn [bind].
  assert (forall eig, exists e, foldM (set_band ns k nb) (map split_ws rows) eig = Ok e) as SB.
  { clear -R2. induction rows as [|r rows IHr]; intros eig; cbn [map foldM]; [eauto|]. destruct (R2 r (or_introl eq_refl)) as [(b & B1 & B2) R]. destruct (set_band_accepts ns k nb eig (split_ws r) b B1 B2 R) as [e E]. rewrite E. cbn [bind]. apply IHr. intros row X. apply R2. right. auto. }
  destruct (SB (tb_eigenvalues t)) as [e E]. rewrite E. cbn [bind]. apply IH; auto. lia.
Qed.
