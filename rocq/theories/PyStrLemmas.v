(** Lemmas about the string and dictionary functions of PyBase. *)
From Coq Require Import Ascii String List NArith ZArith Bool Lia Arith Permutation Sorted.
From Verif Require Import PyBase.
Import ListNotations.
Local Open Scope list_scope.
Local Open Scope bool_scope.

(** ** Sweeping over the 256 characters *)
Definition all_ascii : list ascii := map (fun n => ascii_of_nat n) (seq 0 256).

Lemma all_ascii_complete c : In c all_ascii.
Proof.
  unfold all_ascii. apply in_map_iff. exists (nat_of_ascii c).
  split; [apply ascii_nat_embedding|].
  apply in_seq. pose proof (nat_ascii_bounded c). lia.
Qed.

Lemma forall_ascii (f : ascii -> bool) : forallb f all_ascii = true -> forall c, f c = true.
Proof. intros H c. rewrite forallb_forall in H. apply H, all_ascii_complete. Qed.

Ltac sweep f := revert f; refine (forall_ascii _ _); vm_compute; reflexivity.

Lemma aeqb_eq a b : aeqb a b = true <-> a = b.
Proof. apply Ascii.eqb_eq. Qed.
Lemma aeqb_neq a b : aeqb a b = false <-> a <> b.
Proof. apply Ascii.eqb_neq. Qed.
Lemma aeqb_refl a : aeqb a a = true.
Proof. apply Ascii.eqb_refl. Qed.
Lemma aeqb_sym a b : aeqb a b = aeqb b a.
Proof. apply Ascii.eqb_sym. Qed.

Lemma seqb_eq a b : seqb a b = true <-> a = b.
Proof.
  revert b; induction a as [|x a IH]; intros [|y b]; cbn; try (split; congruence).
  rewrite andb_true_iff, aeqb_eq, IH. split; [intros [-> ->]; reflexivity|intros [= -> ->]; auto].
Qed.
Lemma seqb_refl a : seqb a a = true.
Proof. apply seqb_eq; reflexivity. Qed.
Lemma seqb_neq a b : seqb a b = false <-> a <> b.
Proof.
  destruct (seqb a b) eqn:E.
  - apply seqb_eq in E. split; congruence.
  - split; auto. intros _ ->. rewrite seqb_refl in E; discriminate.
Qed.
Lemma seqb_sym a b : seqb a b = seqb b a.
Proof.
  destruct (seqb a b) eqn:E.
  - apply seqb_eq in E; subst. symmetry; apply seqb_refl.
  - symmetry. apply seqb_neq. apply seqb_neq in E. congruence.
Qed.
Lemma smem_In x l : smem x l = true <-> In x l.
Proof.
  unfold smem. rewrite existsb_exists. split.
  - intros [y [Hy E]]. apply seqb_eq in E. subst; auto.
  - intros H. exists x. split; auto using seqb_refl.
Qed.

(** ** Character classes of whole strings *)
Definition all (P : ascii -> bool) (l : str) : bool := forallb P l.
Definition nospace (l : str) : bool := forallb (fun c => negb (is_space c)) l.
Definition blank (l : str) : bool := forallb is_space l.
Definition nobreak (l : str) : bool := forallb (fun c => negb (is_break c)) l.
Definition nochar (d : ascii) (l : str) : bool := forallb (fun c => negb (aeqb c d)) l.

Lemma forallb_app_iff {A} (f : A -> bool) a b : forallb f (a ++ b) = true <-> forallb f a = true /\ forallb f b = true.
Proof. rewrite forallb_app, andb_true_iff. reflexivity. Qed.

Lemma nochar_In d l : nochar d l = true <-> ~ In d l.
Proof.
  unfold nochar. rewrite forallb_forall. split.
  - intros H Hin. specialize (H d Hin). rewrite aeqb_refl in H. discriminate.
  - intros H x Hx. destruct (aeqb x d) eqn:E; [|reflexivity].
    apply aeqb_eq in E. subst. contradiction.
Qed.

Lemma break_space c : is_break c = true -> is_space c = true.
Proof.
  intros H. pose proof (forall_ascii (fun c => implb (is_break c) (is_space c)) eq_refl c) as K.
  cbv beta in K. rewrite H in K. exact K.
Qed.
Lemma nospace_nobreak l : nospace l = true -> nobreak l = true.
Proof.
  unfold nospace, nobreak. rewrite !forallb_forall. intros H x Hx. specialize (H x Hx).
  destruct (is_break x) eqn:E; [|reflexivity]. apply break_space in E. rewrite E in H. discriminate.
Qed.
Lemma digit_nospace c : is_digit c = true -> is_space c = false.
Proof.
  intros H. pose proof (forall_ascii (fun c => implb (is_digit c) (negb (is_space c))) eq_refl c) as K.
  cbv beta in K. rewrite H in K. cbn in K. destruct (is_space c); auto; discriminate.
Qed.

(** ** split_ws *)
Lemma split_ws_cons_space c r : is_space c = true -> split_ws (c :: r) = split_ws r.
Proof. intros H. cbn. rewrite H. reflexivity. Qed.

Lemma split_ws_blank_app p r : blank p = true -> split_ws (p ++ r) = split_ws r.
Proof.
  induction p as [|c p IH]; cbn [app blank forallb]; auto.
  intros H. apply andb_true_iff in H as [H1 H2]. rewrite split_ws_cons_space; auto.
Qed.
Lemma split_ws_blank p : blank p = true -> split_ws p = [].
Proof. intros H. rewrite <- (app_nil_r p), split_ws_blank_app; auto. Qed.

Lemma split_ws_nil_iff l : split_ws l = [] <-> blank l = true.
Proof.
  split; [|apply split_ws_blank].
  induction l as [|c r IH]; auto.
  cbn [split_ws blank forallb]. destruct (is_space c) eqn:E; [cbn; apply IH|].
  destruct r as [|c' r']; [discriminate|].
  destruct (is_space c'); [discriminate|].
  destruct (split_ws (c' :: r')); discriminate.
Qed.

Lemma split_ws_word w : w <> [] -> nospace w = true -> split_ws w = [w].
Proof.
  induction w as [|c w IH]; [congruence|]. intros _.
  cbn [nospace forallb]. intros H. apply andb_true_iff in H as [H1 H2].
  apply negb_true_iff in H1.
  destruct w as [|c' w'].
  - cbn. rewrite H1. reflexivity.
  - pose proof H2 as H2'. cbn [forallb] in H2'. apply andb_true_iff in H2' as [H3 _]. apply negb_true_iff in H3.
    change (split_ws (c :: c' :: w')) with
      (if is_space c then split_ws (c' :: w') else if is_space c' then [c] :: split_ws (c' :: w')
       else match split_ws (c' :: w') with [] => [[c]] | w :: ws => (c :: w) :: ws end).
    rewrite H1, H3, IH; auto. congruence.
Qed.

Lemma split_ws_app_space a c b :
  is_space c = true -> split_ws (a ++ c :: b) = split_ws a ++ split_ws b.
Proof.
  intros Hc. induction a as [|x a IH].
  - cbn [app]. rewrite split_ws_cons_space; auto.
  - cbn [app]. destruct (is_space x) eqn:Ex.
    + rewrite !split_ws_cons_space; auto.
    + destruct a as [|y a].
      * cbn [app]. cbn [split_ws]. rewrite Ex, Hc. reflexivity.
      * cbn [app] in *. set (rest := a ++ c :: b) in *.
        change (split_ws (x :: y :: rest)) with
          (if is_space x then split_ws (y :: rest) else if is_space y then [x] :: split_ws (y :: rest)
           else match split_ws (y :: rest) with [] => [[x]] | w :: ws => (x :: w) :: ws end).
        change (split_ws (x :: y :: a)) with
          (if is_space x then split_ws (y :: a) else if is_space y then [x] :: split_ws (y :: a)
           else match split_ws (y :: a) with [] => [[x]] | w :: ws => (x :: w) :: ws end).
        rewrite Ex. rewrite IH. destruct (is_space y) eqn:Ey; [reflexivity|].
        destruct (split_ws (y :: a)) eqn:E; [|reflexivity].
        apply split_ws_nil_iff in E. cbn in E. rewrite Ey in E. discriminate.
Qed.

Lemma split_ws_app_blank a p : blank p = true -> split_ws (a ++ p) = split_ws a.
Proof.
  destruct p as [|c p]; [rewrite app_nil_r; auto|].
  cbn [blank forallb]. intros H. apply andb_true_iff in H as [H1 H2].
  rewrite split_ws_app_space, (split_ws_blank p), app_nil_r; auto.
Qed.

Definition is_token (w : str) : bool := match w with [] => false | _ => nospace w end.
Lemma is_token_ne w : is_token w = true -> w <> [].
Proof. destruct w; cbn; congruence. Qed.
Lemma is_token_nospace w : is_token w = true -> nospace w = true.
Proof. destruct w; cbn; congruence. Qed.
Lemma is_token_intro w : w <> [] -> nospace w = true -> is_token w = true.
Proof. destruct w; [congruence|]. auto. Qed.

Lemma split_ws_tokens l : forallb is_token (split_ws l) = true.
Proof.
  induction l as [|c r IH]; auto.
  cbn [split_ws]. destruct (is_space c) eqn:E; auto.
  destruct r as [|c' r'].
  - cbn. rewrite E. reflexivity.
  - destruct (is_space c') eqn:E'.
    + cbn [forallb]. rewrite IH. cbn. rewrite E. reflexivity.
    + destruct (split_ws (c' :: r')) as [|w ws] eqn:Es.
      * cbn. rewrite E. reflexivity.
      * cbn [forallb] in *. apply andb_true_iff in IH as [H1 H2]. rewrite H2.
        cbn. rewrite E. cbn. apply is_token_nospace in H1. fold (nospace w). rewrite H1. reflexivity.
Qed.

Lemma split_ws_chars l w : In w (split_ws l) -> incl w l.
Proof.
  revert w. induction l as [|c r IH]; cbn [split_ws]; [intros ? []|].
  intros w. destruct (is_space c).
  - intros H x Hx. right. eapply IH; eauto.
  - destruct r as [|c' r'].
    + intros [<-|[]]. apply incl_refl.
    + destruct (is_space c').
      * intros [<-|H] x Hx; [destruct Hx as [<-|[]]; left; reflexivity|].
        right. eapply IH; eauto.
      * destruct (split_ws (c' :: r')) as [|w0 ws].
        -- intros [<-|[]] x Hx. destruct Hx as [<-|[]]; left; reflexivity.
        -- intros [<-|H] x Hx.
           ++ destruct Hx as [<-|Hx]; [left; reflexivity|right]. eapply IH; eauto. left; reflexivity.
           ++ right. eapply IH; eauto. right; auto.
Qed.

Lemma join_cons2 sep x y r : join sep (x :: y :: r) = x ++ sep ++ join sep (y :: r).
Proof. reflexivity. Qed.

Lemma split_ws_join c ts :
  is_space c = true -> forallb is_token ts = true -> split_ws (join [c] ts) = ts.
Proof.
  intros Hc. induction ts as [|t ts IH]; auto.
  cbn [forallb]. intros H. apply andb_true_iff in H as [H1 H2].
  destruct ts as [|t' ts].
  - cbn. apply split_ws_word; auto using is_token_ne, is_token_nospace.
  - rewrite join_cons2. cbn [app]. rewrite split_ws_app_space by auto.
    rewrite IH by auto. rewrite split_ws_word; auto using is_token_ne, is_token_nospace.
Qed.

(** ** split_on, split_first *)
Lemma split_on_ne d l : split_on d l <> [].
Proof.
  destruct l as [|c r]; cbn; [congruence|]. destruct (aeqb c d); [congruence|].
  destruct (split_on d r); congruence.
Qed.
Lemma split_on_none d l : nochar d l = true -> split_on d l = [l].
Proof.
  induction l as [|c r IH]; auto. cbn [nochar forallb]. intros H.
  apply andb_true_iff in H as [H1 H2]. apply negb_true_iff in H1.
  cbn. rewrite H1, IH; auto.
Qed.
Lemma split_on_app d a b : nochar d a = true -> split_on d (a ++ d :: b) = a :: split_on d b.
Proof.
  induction a as [|c r IH].
  - intros _. cbn. rewrite aeqb_refl. reflexivity.
  - cbn [nochar forallb app]. intros H.
    apply andb_true_iff in H as [H1 H2]. apply negb_true_iff in H1.
    cbn. rewrite H1, IH; auto.
Qed.
Lemma split_on_parts d l w : In w (split_on d l) -> nochar d w = true.
Proof.
  revert w. induction l as [|c r IH]; cbn [split_on].
  - intros w [<-|[]]. reflexivity.
  - intros w. destruct (aeqb c d) eqn:E.
    + intros [<-|H]; [reflexivity|auto].
    + destruct (split_on d r) as [|w0 ws] eqn:Es.
      * intros [<-|[]]. cbn. rewrite E. reflexivity.
      * intros [<-|H]; [|apply IH; right; auto].
        cbn. rewrite E. cbn. apply IH. left; reflexivity.
Qed.
Lemma split_on_chars d l w : In w (split_on d l) -> incl w l.
Proof.
  revert w. induction l as [|c r IH]; cbn [split_on].
  - intros w [<-|[]]. apply incl_refl.
  - intros w. destruct (aeqb c d) eqn:E.
    + intros [<-|H] x Hx; [destruct Hx|right; eapply IH; eauto].
    + destruct (split_on d r) as [|w0 ws] eqn:Es.
      * intros [<-|[]] x [<-|[]]. left; reflexivity.
      * intros [<-|H] x Hx.
        -- destruct Hx as [<-|Hx]; [left; reflexivity|right; eapply IH; eauto; left; reflexivity].
        -- right. eapply IH; eauto. right; auto.
Qed.
Lemma split_on_join d l : join [d] (split_on d l) = l.
Proof.
  induction l as [|c r IH]; auto. cbn [split_on]. destruct (aeqb c d) eqn:E.
  - apply aeqb_eq in E. subst. destruct (split_on d r) as [|w ws] eqn:Es.
    + exfalso. eapply split_on_ne; eauto.
    + rewrite join_cons2. rewrite IH. reflexivity.
  - destruct (split_on d r) as [|w ws] eqn:Es; [exfalso; eapply split_on_ne; eauto|].
    rewrite <- IH. destruct ws; reflexivity.
Qed.
Lemma split_join_on d ts :
  ts <> [] -> forallb (nochar d) ts = true -> split_on d (join [d] ts) = ts.
Proof.
  induction ts as [|t ts IH]; [congruence|]. intros _. cbn [forallb]. intros H.
  apply andb_true_iff in H as [H1 H2]. destruct ts as [|t' ts].
  - cbn. apply split_on_none; auto.
  - rewrite join_cons2. cbn [app]. rewrite split_on_app by auto. rewrite IH; auto. congruence.
Qed.

Lemma split_first_hd d l : fst (split_first d l) = hd [] (split_on d l).
Proof.
  induction l as [|c r IH]; auto. cbn. destruct (aeqb c d); auto.
  destruct (split_first d r) as [a b]. cbn in *. subst.
  destruct (split_on d r) eqn:E; [exfalso; eapply split_on_ne; eauto|]. reflexivity.
Qed.
Lemma split_first_none d l : nochar d l = true -> split_first d l = (l, None).
Proof.
  induction l as [|c r IH]; auto. cbn [nochar forallb]. intros H.
  apply andb_true_iff in H as [H1 H2]. apply negb_true_iff in H1.
  cbn. rewrite H1, IH; auto.
Qed.
Lemma split_first_app d a b : nochar d a = true -> split_first d (a ++ d :: b) = (a, Some b).
Proof.
  induction a as [|c r IH].
  - intros _. cbn. rewrite aeqb_refl. reflexivity.
  - cbn [nochar forallb app]. intros H.
    apply andb_true_iff in H as [H1 H2]. apply negb_true_iff in H1.
    cbn. rewrite H1, IH; auto.
Qed.
Lemma split_first_nochar d l : nochar d (fst (split_first d l)) = true.
Proof.
  rewrite split_first_hd. destruct (split_on d l) as [|w ws] eqn:E; [reflexivity|].
  eapply split_on_parts. rewrite E. left; reflexivity.
Qed.
Lemma split_first_spec d l :
  match split_first d l with
  | (a, None) => l = a
  | (a, Some b) => l = a ++ d :: b
  end.
Proof.
  induction l as [|c r IH]; [reflexivity|]. cbn. destruct (aeqb c d) eqn:E.
  - apply aeqb_eq in E. subst; reflexivity.
  - destruct (split_first d r) as [a [b|]]; cbn; subst; reflexivity.
Qed.

(** ** strip *)
Lemma lstrip_blank_app p l : blank p = true -> lstrip (p ++ l) = lstrip l.
Proof.
  induction p as [|c p IH]; auto. cbn. intros H. apply andb_true_iff in H as [H1 H2].
  rewrite H1. auto.
Qed.
Lemma lstrip_blank p : blank p = true -> lstrip p = [].
Proof. intros H. rewrite <- (app_nil_r p), lstrip_blank_app; auto. Qed.
Definition head_ns (l : str) : bool := match l with [] => true | c :: _ => negb (is_space c) end.
Definition last_ns (l : str) : bool := head_ns (rev l).
Lemma lstrip_id l : head_ns l = true -> lstrip l = l.
Proof. destruct l as [|c r]; auto. cbn. intros H. apply negb_true_iff in H. rewrite H. reflexivity. Qed.
Lemma lstrip_spec l : exists p, blank p = true /\ l = p ++ lstrip l.
Proof.
  induction l as [|c r [p [Hp E]]]; [exists []; auto|].
  cbn. destruct (is_space c) eqn:Ec.
  - exists (c :: p). cbn. rewrite Ec. split; auto. congruence.
  - exists []. auto.
Qed.
Lemma lstrip_head l : head_ns (lstrip l) = true.
Proof.
  induction l as [|c r IH]; auto. cbn. destruct (is_space c) eqn:E; auto. cbn. rewrite E. reflexivity.
Qed.
Lemma blank_rev p : blank (rev p) = blank p.
Proof.
  apply eq_iff_eq_true. unfold blank. rewrite !forallb_forall.
  split; intros H x Hx; apply H; [rewrite <- in_rev|rewrite in_rev]; auto.
Qed.
Lemma nospace_rev p : nospace (rev p) = nospace p.
Proof.
  apply eq_iff_eq_true. unfold nospace. rewrite !forallb_forall.
  split; intros H x Hx; apply H; [rewrite <- in_rev|rewrite in_rev]; auto.
Qed.
Lemma rstrip_spec l : exists p, blank p = true /\ l = rstrip l ++ p.
Proof.
  unfold rstrip. destruct (lstrip_spec (rev l)) as [p [Hp E]].
  exists (rev p). split; [rewrite blank_rev; auto|].
  rewrite <- rev_app_distr. rewrite <- E. symmetry; apply rev_involutive.
Qed.
Lemma rstrip_last l : last_ns (rstrip l) = true.
Proof. unfold last_ns, rstrip. rewrite rev_involutive. apply lstrip_head. Qed.
Lemma rstrip_head l : head_ns l = true -> head_ns (rstrip l) = true.
Proof.
  intros H. destruct (rstrip_spec l) as [p [Hp E]].
  destruct (rstrip l) as [|c r] eqn:R; auto.
  rewrite E in H. cbn in *. auto.
Qed.
Lemma strip_head l : head_ns (strip l) = true.
Proof. apply rstrip_head, lstrip_head. Qed.
Lemma strip_last l : last_ns (strip l) = true.
Proof. apply rstrip_last. Qed.
Lemma rstrip_id l : last_ns l = true -> rstrip l = l.
Proof. unfold rstrip, last_ns. intros H. rewrite lstrip_id by auto. apply rev_involutive. Qed.
Lemma strip_id l : head_ns l = true -> last_ns l = true -> strip l = l.
Proof. intros H1 H2. unfold strip. rewrite lstrip_id, rstrip_id; auto. Qed.
Lemma strip_idem l : strip (strip l) = strip l.
Proof. apply strip_id; auto using strip_head, strip_last. Qed.
Lemma rstrip_app_blank l p : blank p = true -> rstrip (l ++ p) = rstrip l.
Proof. intros H. unfold rstrip. rewrite rev_app_distr, lstrip_blank_app; auto. rewrite blank_rev; auto. Qed.
Lemma lstrip_app_blank l p : blank p = true -> exists q, blank q = true /\ lstrip (l ++ p) = lstrip l ++ q.
Proof.
  intros H. induction l as [|c r IH].
  - exists []. cbn. rewrite lstrip_blank; auto.
  - cbn. destruct (is_space c); auto. exists p. auto.
Qed.
Lemma strip_app_blank l p : blank p = true -> strip (l ++ p) = strip l.
Proof.
  intros H. unfold strip. destruct (lstrip_app_blank l p H) as [q [Hq E]].
  rewrite E, rstrip_app_blank; auto.
Qed.
Lemma strip_blank_app l p : blank p = true -> strip (p ++ l) = strip l.
Proof. intros H. unfold strip. rewrite lstrip_blank_app; auto. Qed.
Lemma strip_blank p : blank p = true -> strip p = [].
Proof. intros H. rewrite <- (app_nil_r p). rewrite strip_blank_app; auto. Qed.
Lemma strip_spec l : exists p q, blank p = true /\ blank q = true /\ l = p ++ strip l ++ q.
Proof.
  destruct (lstrip_spec l) as [p [Hp E]]. destruct (rstrip_spec (lstrip l)) as [q [Hq E']].
  exists p, q. repeat split; auto. unfold strip. congruence.
Qed.
Lemma strip_chars l : incl (strip l) l.
Proof.
  destruct (strip_spec l) as [p [q [_ [_ E]]]]. intros x Hx. rewrite E.
  apply in_or_app. right. apply in_or_app. left; auto.
Qed.
Lemma nospace_head l : nospace l = true -> head_ns l = true.
Proof. destruct l; auto. cbn. intros H. apply andb_true_iff in H as [H _]. auto. Qed.
Lemma strip_nospace l : nospace l = true -> strip l = l.
Proof.
  intros H. apply strip_id; [apply nospace_head; auto|].
  unfold last_ns. apply nospace_head. rewrite nospace_rev; auto.
Qed.
Lemma split_ws_strip l : split_ws (strip l) = split_ws l.
Proof.
  destruct (strip_spec l) as [p [q [Hp [Hq E]]]]. rewrite E at 2.
  rewrite split_ws_blank_app, split_ws_app_blank; auto.
Qed.

Lemma forallb_incl {A} (f : A -> bool) a b : incl a b -> forallb f b = true -> forallb f a = true.
Proof. rewrite !forallb_forall. intros H K x Hx. apply K, H, Hx. Qed.

(** ** lines *)
Lemma splitlines_app w r : nobreak w = true -> splitlines (w ++ nl :: r) = w :: splitlines r.
Proof.
  induction w as [|c w IH].
  - intros _. cbn [app splitlines]. change (is_break nl) with true. cbv iota.
    destruct r as [|c' r']; reflexivity.
  - cbn [nobreak forallb]. intros H. apply andb_true_iff in H as [H1 H2]. apply negb_true_iff in H1.
    cbn [app splitlines]. rewrite H1. rewrite (IH H2).
    destruct w; reflexivity.
Qed.
Lemma splitlines_last w : nobreak w = true -> w <> [] -> splitlines w = [w].
Proof.
  induction w as [|c w IH]; [congruence|]. intros H _.
  cbn [nobreak forallb] in H. apply andb_true_iff in H as [H1 H2]. apply negb_true_iff in H1.
  cbn [splitlines]. rewrite H1. destruct w as [|c' w]; [reflexivity|].
  rewrite IH; auto. congruence.
Qed.
Lemma splitlines_parts_aux n l w : length l <= n -> In w (splitlines l) -> nobreak w = true.
Proof.
  revert l w. induction n as [|n IH]; intros l w Hn.
  - destruct l; [intros []|cbn in Hn; lia].
  - destruct l as [|c r]; [intros []|]. cbn in Hn. cbn [splitlines].
    destruct (is_break c) eqn:E.
    + intros [<-|H]; [reflexivity|].
      destruct r as [|c' r']; [destruct H|].
      destruct (aeqb c cr && aeqb c' nl); (eapply IH; [|exact H]); cbn in *; lia.
    + destruct r as [|c' r'].
      * intros [<-|[]]. cbn. rewrite E; reflexivity.
      * destruct (splitlines (c' :: r')) as [|w0 ws] eqn:Es.
        -- intros [<-|[]]. cbn. rewrite E; reflexivity.
        -- intros [<-|H].
           ++ cbn. rewrite E. cbn. eapply (IH (c' :: r')); [lia|]. rewrite Es; left; reflexivity.
           ++ eapply (IH (c' :: r')); [lia|]. rewrite Es; right; auto.
Qed.
Lemma splitlines_parts l w : In w (splitlines l) -> nobreak w = true.
Proof. eapply splitlines_parts_aux; eauto. Qed.

Lemma readlines_app w r : nochar nl w = true -> readlines (w ++ nl :: r) = (w ++ [nl]) :: readlines r.
Proof.
  induction w as [|c w IH].
  - intros _. cbn. reflexivity.
  - cbn [nochar forallb app]. intros H. apply andb_true_iff in H as [H1 H2]. apply negb_true_iff in H1.
    cbn. rewrite H1, IH; auto.
Qed.
Lemma readlines_last w : nochar nl w = true -> w <> [] -> readlines w = [w].
Proof.
  induction w as [|c w IH]; [congruence|]. cbn [nochar forallb]. intros H _.
  apply andb_true_iff in H as [H1 H2]. apply negb_true_iff in H1.
  cbn. rewrite H1. destruct w as [|c' w]; [reflexivity|]. rewrite IH; auto. congruence.
Qed.
Lemma nobreak_nonl w : nobreak w = true -> nochar nl w = true.
Proof.
  unfold nobreak, nochar. rewrite !forallb_forall. intros H x Hx. specialize (H x Hx).
  destruct (aeqb x nl) eqn:E; auto. apply aeqb_eq in E. subst. discriminate.
Qed.

(** ** Case *)
Lemma lower_idem1 c : lower1 (lower1 c) = lower1 c.
Proof.
  pose proof (forall_ascii (fun c => aeqb (lower1 (lower1 c)) (lower1 c)) eq_refl c) as K.
  apply aeqb_eq in K. exact K.
Qed.
Lemma lower_idem s : lower (lower s) = lower s.
Proof. unfold lower. rewrite map_map. apply map_ext. apply lower_idem1. Qed.
(** characters whose upper-case is inside the modelled range *)
Definition upper_ok (c : ascii) : bool := negb (code c =? 181)%N && negb (code c =? 223)%N && negb (code c =? 255)%N.
Definition is_lower_fix (c : ascii) : bool := aeqb (lower1 c) c.
Lemma lower_upper1 c : lower1 (upper1 c) = lower1 c.
Proof.
  pose proof (forall_ascii (fun c => aeqb (lower1 (upper1 c)) (lower1 c)) eq_refl c) as K.
  apply aeqb_eq in K. exact K.
Qed.
Lemma lower_upper s : lower (upper s) = lower s.
Proof. unfold lower, upper. rewrite map_map. apply map_ext. apply lower_upper1. Qed.
Lemma lower_space c : is_space (lower1 c) = is_space c.
Proof.
  pose proof (forall_ascii (fun c => eqb (is_space (lower1 c)) (is_space c)) eq_refl c) as K.
  apply eqb_prop in K. exact K.
Qed.
Lemma upper_space c : is_space (upper1 c) = is_space c.
Proof.
  pose proof (forall_ascii (fun c => eqb (is_space (upper1 c)) (is_space c)) eq_refl c) as K.
  apply eqb_prop in K. exact K.
Qed.
Lemma nospace_lower s : nospace (lower s) = nospace s.
Proof. induction s as [|c s IH]; auto. cbn. rewrite lower_space. f_equal. exact IH. Qed.
Lemma nospace_upper s : nospace (upper s) = nospace s.
Proof. induction s as [|c s IH]; auto. cbn. rewrite upper_space. f_equal. exact IH. Qed.
Lemma is_token_lower s : is_token (lower s) = is_token s.
Proof. destruct s; auto. change (nospace (lower (a :: s)) = nospace (a :: s)). apply nospace_lower. Qed.
Lemma is_token_upper s : is_token (upper s) = is_token s.
Proof. destruct s; auto. change (nospace (upper (a :: s)) = nospace (a :: s)). apply nospace_upper. Qed.
Lemma lower_nochar d s : is_lower_fix d = true -> (code d <? 97)%N = true -> nochar d (lower s) = nochar d s.
Proof.
  intros H1 H2. induction s as [|c s IH]; auto. cbn. f_equal; [|exact IH]. f_equal.
  pose proof (forall_ascii (fun d => implb (is_lower_fix d && (code d <? 97)%N) (forallb (fun c => eqb (aeqb (lower1 c) d) (aeqb c d)) all_ascii)) ltac:(vm_compute; reflexivity) d) as K.
  cbv beta in K. rewrite H1, H2 in K. cbn [andb implb] in K.
  rewrite forallb_forall in K. specialize (K c (all_ascii_complete c)). apply eqb_prop in K. exact K.
Qed.
Lemma upper_nochar d s : is_lower_fix d = true -> (code d <? 97)%N = true -> nochar d (upper s) = nochar d s.
Proof.
  intros H1 H2. induction s as [|c s IH]; auto. cbn. f_equal; [|exact IH]. f_equal.
  pose proof (forall_ascii (fun d => implb (is_lower_fix d && (code d <? 97)%N) (forallb (fun c => eqb (aeqb (upper1 c) d) (aeqb c d)) all_ascii)) ltac:(vm_compute; reflexivity) d) as K.
  cbv beta in K. rewrite H1, H2 in K. cbn [andb implb] in K.
  rewrite forallb_forall in K. specialize (K c (all_ascii_complete c)). apply eqb_prop in K. exact K.
Qed.

(** ** Order and sorting *)
Lemma code_inj a b : code a = code b -> a = b.
Proof.
  unfold code. intros H. rewrite <- (ascii_N_embedding a), <- (ascii_N_embedding b). congruence.
Qed.
Lemma sleb_refl a : sleb a a = true.
Proof. induction a as [|x a IH]; auto. cbn. rewrite N.ltb_irrefl. auto. Qed.
Lemma sleb_total a b : sleb a b = true \/ sleb b a = true.
Proof.
  revert b; induction a as [|x a IH]; intros [|y b]; cbn; auto.
  destruct (code x <? code y)%N eqn:E1; auto.
  destruct (code y <? code x)%N eqn:E2; auto.
Qed.
Lemma sleb_antisym a b : sleb a b = true -> sleb b a = true -> a = b.
Proof.
  revert b; induction a as [|x a IH]; intros [|y b]; cbn; try congruence.
  destruct (N.ltb_spec (code x) (code y)); destruct (N.ltb_spec (code y) (code x)); try congruence; try lia.
  intros H1 H2. f_equal; [apply code_inj; lia|auto].
Qed.
Lemma sleb_trans a b c : sleb a b = true -> sleb b c = true -> sleb a c = true.
Proof.
  revert b c; induction a as [|x a IH]; intros [|y b] [|z c]; cbn; try congruence.
  destruct (N.ltb_spec (code x) (code y)); destruct (N.ltb_spec (code y) (code x));
  destruct (N.ltb_spec (code y) (code z)); destruct (N.ltb_spec (code z) (code y));
  destruct (N.ltb_spec (code x) (code z)); destruct (N.ltb_spec (code z) (code x));
  try congruence; try lia. apply IH.
Qed.

Lemma sinsert_perm x l : Permutation (sinsert x l) (x :: l).
Proof.
  induction l as [|y r IH]; cbn; auto. destruct (sleb x y); auto.
  rewrite IH. constructor.
Qed.
Lemma ssort_perm l : Permutation (ssort l) l.
Proof. induction l as [|x l IH]; cbn; auto. rewrite sinsert_perm. auto. Qed.
Definition sle a b := sleb a b = true.
Definition slt a b := sltb a b = true.
Lemma sinsert_sorted x l : StronglySorted sle l -> StronglySorted sle (sinsert x l).
Proof.
  induction 1 as [|y r Hr IH Hf]; cbn.
  - constructor; constructor.
  - destruct (sleb x y) eqn:E.
    + constructor; [constructor; auto|]. constructor; [exact E|].
      eapply Forall_impl; [|exact Hf]. intros z Hz. eapply sleb_trans; eauto.
    + constructor; auto. eapply Permutation_Forall; [symmetry; apply sinsert_perm|].
      constructor; auto. destruct (sleb_total x y) as [K|K]; [congruence|exact K].
Qed.
Lemma ssort_sorted l : StronglySorted sle (ssort l).
Proof. induction l; cbn; [constructor|apply sinsert_sorted; auto]. Qed.
Lemma sorted_perm_unique l1 l2 :
  Permutation l1 l2 -> StronglySorted sle l1 -> StronglySorted sle l2 -> l1 = l2.
Proof.
  revert l2; induction l1 as [|x l1 IH]; intros l2 HP H1 H2.
  - apply Permutation_nil in HP. auto.
  - destruct l2 as [|y l2]; [symmetry in HP; apply Permutation_nil in HP; discriminate|].
    inversion H1 as [|? ? H1a H1b]; subst. inversion H2 as [|? ? H2a H2b]; subst.
    assert (x = y) as <-.
    { assert (In x (y :: l2)) as Hx by (eapply Permutation_in; [exact HP|left; reflexivity]).
      assert (In y (x :: l1)) as Hy by (eapply Permutation_in; [symmetry; exact HP|left; reflexivity]).
      destruct Hx as [->|Hx]; auto. destruct Hy as [->|Hy]; auto.
      rewrite Forall_forall in H1b, H2b. apply sleb_antisym; [apply H1b|apply H2b]; auto. }
    f_equal. apply IH; auto. eapply Permutation_cons_inv; eauto.
Qed.
Lemma ssort_perm_eq l1 l2 : Permutation l1 l2 -> ssort l1 = ssort l2.
Proof.
  intros H. apply sorted_perm_unique; auto using ssort_sorted.
  rewrite !ssort_perm. auto.
Qed.
Lemma sorted_strict l : NoDup l -> StronglySorted sle l -> StronglySorted slt l.
Proof.
  induction 2 as [|y r Hr IH Hf]; constructor.
  - inversion H; auto.
  - inversion H as [|? ? Hn Hd]; subst. rewrite Forall_forall in *. intros z Hz.
    unfold slt, sltb. apply andb_true_iff. split; [apply Hf; auto|].
    apply negb_true_iff, seqb_neq. intros ->. contradiction.
Qed.

(** ** Dictionaries *)
Section Dict.
Context {V : Type}.
Implicit Types d : dict V.

Lemma dget_dset_same k v d : dget k (dset k v d) = Some v.
Proof.
  induction d as [|[k' v'] r IH]; cbn; [rewrite seqb_refl; auto|].
  destruct (seqb k k') eqn:E; cbn; rewrite E; auto.
Qed.
Lemma dget_dset_other k k2 v d : k2 <> k -> dget k2 (dset k v d) = dget k2 d.
Proof.
  intros H. induction d as [|[k' v'] r IH]; cbn.
  - apply seqb_neq in H. rewrite H. auto.
  - destruct (seqb k k') eqn:E; cbn.
    + destruct (seqb k2 k') eqn:E2; auto. apply seqb_eq in E, E2. congruence.
    + destruct (seqb k2 k'); auto.
Qed.
Lemma dget_In k v d : dget k d = Some v -> In (k, v) d.
Proof.
  induction d as [|[k' v'] r IH]; cbn; [discriminate|].
  destruct (seqb k k') eqn:E; [|auto]. apply seqb_eq in E. intros [= ->]. subst. auto.
Qed.
Lemma dget_None k d : dget k d = None <-> ~ In k (dkeys d).
Proof.
  induction d as [|[k' v'] r IH]; cbn; [tauto|].
  destruct (seqb k k') eqn:E.
  - apply seqb_eq in E. subst. split; [discriminate|]. intros H. exfalso. apply H. auto.
  - apply seqb_neq in E. rewrite IH. split; [intros H [K|K]; [congruence|tauto]|tauto].
Qed.
Lemma In_dget k v d : NoDup (dkeys d) -> In (k, v) d -> dget k d = Some v.
Proof.
  induction d as [|[k' v'] r IH]; cbn; [intros _ []|].
  intros Hn [[= -> ->]|Hin]; [rewrite seqb_refl; auto|].
  inversion Hn as [|? ? Ha Hb]; subst.
  destruct (seqb k k') eqn:E; [|auto]. apply seqb_eq in E. subst. exfalso. apply Ha.
  apply in_map_iff. exists (k', v). auto.
Qed.
Lemma dkeys_dset k v d : dkeys (dset k v d) = if dhas k d then dkeys d else dkeys d ++ [k].
Proof.
  unfold dhas. induction d as [|[k' v'] r IH]; cbn; auto.
  destruct (seqb k k'); cbn; auto. fold (dkeys r). fold (dkeys (dset k v r)). rewrite IH.
  destruct (dget k r); auto.
Qed.
Lemma dset_In k v k2 v2 d : In (k2, v2) (dset k v d) -> (k2 = k /\ v2 = v) \/ In (k2, v2) d.
Proof.
  induction d as [|[k' v'] r IH]; cbn.
  - intros [[= -> ->]|[]]; auto.
  - destruct (seqb k k') eqn:E; cbn.
    + apply seqb_eq in E. subst. intros [[= -> ->]|H]; auto.
    + intros [[= -> ->]|H]; auto. destruct (IH H); auto.
Qed.
Lemma dset_NoDup k v d : NoDup (dkeys d) -> NoDup (dkeys (dset k v d)).
Proof.
  intros H. rewrite dkeys_dset. unfold dhas. destruct (dget k d) eqn:E; auto.
  apply dget_None in E. apply NoDup_rev in H. rewrite <- (rev_involutive (dkeys d ++ [k])).
  apply NoDup_rev. rewrite rev_app_distr. cbn. constructor; auto. rewrite <- in_rev. auto.
Qed.
Lemma ddel_keys_incl k d : incl (dkeys (ddel k d)) (dkeys d).
Proof.
  induction d as [|[k' v'] r IH]; cbn; [apply incl_refl|].
  destruct (seqb k k'); cbn; [apply incl_tl, incl_refl|].
  intros x [->|Hx]; [left; auto|right; apply IH; auto].
Qed.
Lemma ddel_In k k2 v2 d : In (k2, v2) (ddel k d) -> In (k2, v2) d.
Proof.
  induction d as [|[k' v'] r IH]; cbn; auto.
  destruct (seqb k k'); cbn; auto. intros [H|H]; auto.
Qed.
Lemma ddel_NoDup k d : NoDup (dkeys d) -> NoDup (dkeys (ddel k d)).
Proof.
  induction d as [|[k' v'] r IH]; cbn; auto. intros H. inversion H as [|? ? Ha Hb]; subst.
  destruct (seqb k k'); auto. cbn. constructor; auto. intros Hin. apply Ha. eapply ddel_keys_incl; eauto.
Qed.
Lemma dget_ddel_same k d : NoDup (dkeys d) -> dget k (ddel k d) = None.
Proof.
  induction d as [|[k' v'] r IH]; cbn; auto. intros H. inversion H as [|? ? Ha Hb]; subst.
  destruct (seqb k k') eqn:E.
  - apply seqb_eq in E. subst. apply dget_None. auto.
  - cbn. rewrite E. auto.
Qed.
Lemma dget_ddel_other k k2 d : k2 <> k -> dget k2 (ddel k d) = dget k2 d.
Proof.
  intros H. induction d as [|[k' v'] r IH]; cbn; auto.
  destruct (seqb k k') eqn:E; cbn.
  - destruct (seqb k2 k') eqn:E2; auto. apply seqb_eq in E, E2. congruence.
  - destruct (seqb k2 k'); auto.
Qed.
Lemma dhas_In k d : dhas k d = true <-> In k (dkeys d).
Proof.
  unfold dhas. destruct (dget k d) eqn:E.
  - split; auto. intros _. apply dget_In in E. apply in_map_iff. exists (k, v). auto.
  - apply dget_None in E. split; [discriminate|contradiction].
Qed.
End Dict.

Lemma bind_ok {A B} (r : res A) (f : A -> res B) b :
  bind r f = Ok b -> exists a, r = Ok a /\ f a = Ok b.
Proof. destruct r; cbn; [eauto|discriminate]. Qed.
Lemma mapM_ok_Forall2 {A B} (f : A -> res B) l bs :
  mapM f l = Ok bs -> Forall2 (fun a b => f a = Ok b) l bs.
Proof.
  revert bs; induction l as [|a l IH]; cbn; intros bs.
  - intros [= <-]. constructor.
  - intros H. apply bind_ok in H as [b [Hb H]]. apply bind_ok in H as [bs' [Hbs H]].
    inversion H; subst. constructor; auto.
Qed.
Lemma Forall2_mapM {A B} (f : A -> res B) l bs :
  Forall2 (fun a b => f a = Ok b) l bs -> mapM f l = Ok bs.
Proof. induction 1 as [|a b l bs Hab _ IH]; cbn; auto. rewrite Hab. cbn. rewrite IH. reflexivity. Qed.
Lemma foldM_app {A S} (f : S -> A -> res S) l1 l2 s :
  foldM f (l1 ++ l2) s = let* s' := foldM f l1 s in foldM f l2 s'.
Proof.
  revert s; induction l1 as [|a l IH]; intros s; cbn; auto.
  destruct (f s a); cbn; auto.
Qed.
