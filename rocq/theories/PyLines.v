(** Lines of text: joining lines with newlines and splitting them again. *)
From Coq Require Import Ascii String List NArith ZArith Bool Lia Arith.
From Verif Require Import PyBase PyNum PyStrLemmas PyNumLemmas PyFmtLemmas.
Import ListNotations.
Local Open Scope list_scope.
Local Open Scope bool_scope.
Local Open Scope nat_scope.

Definition unlines (ls : list str) : str := concat (map (fun l => l ++ [nl]) ls).

Lemma unlines_cons l ls : unlines (l :: ls) = l ++ nl :: unlines ls.
Proof. unfold unlines. cbn. rewrite <- app_assoc. reflexivity. Qed.
Lemma unlines_app a b : unlines (a ++ b) = unlines a ++ unlines b.
Proof. unfold unlines. rewrite map_app, concat_app. reflexivity. Qed.
Lemma unlines_one l : unlines [l] = l ++ [nl].
Proof. rewrite unlines_cons. reflexivity. Qed.

Lemma splitlines_unlines ls : forallb nobreak ls = true -> splitlines (unlines ls) = ls.
Proof.
  induction ls as [|l ls IH]; auto. cbn [forallb]. intros H. apply andb_true_iff in H as [H1 H2].
  rewrite unlines_cons, splitlines_app by auto. rewrite IH; auto.
Qed.
Lemma readlines_unlines ls : forallb (nochar nl) ls = true ->
  readlines (unlines ls) = map (fun l => l ++ [nl]) ls.
Proof.
  induction ls as [|l ls IH]; auto. cbn [forallb map]. intros H. apply andb_true_iff in H as [H1 H2].
  rewrite unlines_cons, readlines_app by auto. rewrite IH; auto.
Qed.
(** the last line without its newline *)
Lemma splitlines_unlines_last ls l : forallb nobreak ls = true -> nobreak l = true -> l <> [] ->
  splitlines (unlines ls ++ l) = ls ++ [l].
Proof.
  intros H H1 H2. induction ls as [|x ls IH]; [apply splitlines_last; auto|].
  cbn [forallb] in H. apply andb_true_iff in H as [Hx H].
  rewrite unlines_cons, <- app_assoc. cbn [app]. rewrite splitlines_app, IH; auto.
Qed.
Lemma readlines_unlines_last ls l : forallb (nochar nl) ls = true -> nochar nl l = true -> l <> [] ->
  readlines (unlines ls ++ l) = map (fun x => x ++ [nl]) ls ++ [l].
Proof.
  intros H H1 H2. induction ls as [|x ls IH]; [apply readlines_last; auto|].
  cbn [forallb] in H. apply andb_true_iff in H as [Hx H].
  rewrite unlines_cons, <- app_assoc. cbn [app map]. rewrite readlines_app, IH; auto.
Qed.

Lemma nobreak_app a b : nobreak (a ++ b) = nobreak a && nobreak b.
Proof. apply forallb_app. Qed.
Lemma nochar_app d a b : nochar d (a ++ b) = nochar d a && nochar d b.
Proof. apply forallb_app. Qed.
Lemma nobreak_nocr w : nobreak w = true -> nochar cr w = true.
Proof.
  unfold nobreak, nochar. rewrite !forallb_forall. intros H x Hx. apply H in Hx.
  destruct (aeqb x cr) eqn:E; auto. apply aeqb_eq in E. subst. discriminate.
Qed.
Lemma forallb_nobreak_nonl ls : forallb nobreak ls = true -> forallb (nochar nl) ls = true.
Proof. rewrite !forallb_forall. intros H x Hx. apply nobreak_nonl, H, Hx. Qed.
Lemma unlines_nocr ls : forallb nobreak ls = true -> nochar cr (unlines ls) = true.
Proof.
  induction ls as [|l ls IH]; auto. cbn [forallb]. intros H. apply andb_true_iff in H as [H1 H2].
  rewrite unlines_cons, nochar_app. rewrite nobreak_nocr by auto. cbn. apply IH; auto.
Qed.
Lemma translate_nochange l : nochar cr l = true -> translate_newlines l = l.
Proof.
  induction l as [|c r IH]; auto. cbn [nochar forallb]. intros H. apply andb_true_iff in H as [H1 H2].
  cbn [translate_newlines]. apply negb_true_iff in H1. rewrite H1. f_equal. apply IH, H2.
Qed.

(** ** A line and the same line with its newline *)
Lemma strip_nl l : strip (l ++ [nl]) = strip l.
Proof. apply strip_app_blank. reflexivity. Qed.
Lemma split_ws_nl l : split_ws (l ++ [nl]) = split_ws l.
Proof. apply split_ws_app_blank. reflexivity. Qed.

(** ** Number tokens on a line *)
Lemma is_space_sp : is_space sp = true. Proof. reflexivity. Qed.
Lemma split_ws_sp a b : split_ws (a ++ [sp] ++ b) = split_ws a ++ split_ws b.
Proof. cbn [app]. apply split_ws_app_space. reflexivity. Qed.
Lemma split_ws_pad w t : is_token t = true -> split_ws (pad_left w t) = [t].
Proof.
  intros H. destruct (pad_left_spec w t) as [p [Hp ->]]. rewrite split_ws_blank_app by auto.
  apply split_ws_word; [apply is_token_ne|apply is_token_nospace]; auto.
Qed.
Lemma split_ws_fmtf w p x : split_ws (fmt_f w p x) = [fixed_text p x].
Proof.
  destruct (fmt_f_pad w p x) as [b [Hb ->]]. rewrite split_ws_blank_app by auto.
  apply split_ws_word; [apply is_token_ne|apply is_token_nospace]; apply fixed_text_token.
Qed.
Lemma split_ws_fmtd w z : split_ws (fmt_d w z) = [str_of_Z z].
Proof. apply split_ws_pad, str_of_Z_token. Qed.

(** blanks that are not line breaks *)
Lemma nobreak_repeat n : nobreak (repeat sp n) = true.
Proof. unfold nobreak. induction n; cbn; auto. Qed.
Lemma nobreak_fmtf w p x : nobreak (fmt_f w p x) = true.
Proof.
  unfold fmt_f, pad_left. rewrite nobreak_app, nobreak_repeat. cbn [andb].
  pose proof (fixed_text_nospace p x) as H. unfold fixed_text, fmt_f, pad_left in H. cbn [Nat.sub repeat app] in H.
  apply nospace_nobreak, H.
Qed.
Lemma nobreak_fmtd w z : nobreak (fmt_d w z) = true.
Proof.
  unfold fmt_d, pad_left. rewrite nobreak_app, nobreak_repeat. cbn [andb].
  apply nospace_nobreak, is_token_nospace, str_of_Z_token.
Qed.
Lemma nobreak_join c ls : is_break c = false -> forallb nobreak ls = true -> nobreak (join [c] ls) = true.
Proof.
  intros Hc. induction ls as [|l [|l' ls] IH]; intros H; auto.
  - cbn in *. apply andb_true_iff in H. tauto.
  - rewrite join_cons2. cbn [forallb] in H. apply andb_true_iff in H as [H1 H2].
    rewrite !nobreak_app, H1, IH by auto. cbn. rewrite Hc. reflexivity.
Qed.

(** ** Reading back lists of numbers *)
Definition num_texts (p : nat) (xs : list float) : list str := map (fixed_text p) xs.
Lemma split_ws_join_fmtf w p xs : split_ws (join [sp] (map (fmt_f w p) xs)) = map (fixed_text p) xs.
Proof.
  induction xs as [|x [|y xs] IH]; [reflexivity|cbn; apply split_ws_fmtf|].
  cbn [map]. cbn [map] in IH. rewrite join_cons2, split_ws_sp, split_ws_fmtf, IH. reflexivity.
Qed.
Lemma split_ws_join_fmtd w zs : split_ws (join [sp] (map (fmt_d w) zs)) = map str_of_Z zs.
Proof.
  induction zs as [|x [|y xs] IH]; [reflexivity|cbn; apply split_ws_fmtd|].
  cbn [map]. cbn [map] in IH. rewrite join_cons2, split_ws_sp, split_ws_fmtd, IH. reflexivity.
Qed.
Lemma mapM_map {A B C} (f : A -> B) (g : B -> res C) l : mapM g (map f l) = mapM (fun a => g (f a)) l.
Proof. induction l as [|a l IH]; cbn; auto. rewrite IH. reflexivity. Qed.
Lemma mapM_ok {A B} (f : A -> res B) (g : A -> B) l : (forall a, In a l -> f a = Ok (g a)) -> mapM f l = Ok (map g l).
Proof.
  intros H. induction l as [|a l IH]; cbn; auto. rewrite H by (left; auto). cbn.
  rewrite IH by (intros; apply H; right; auto). reflexivity.
Qed.
Lemma mapM_ext {A B} (f g : A -> res B) l : (forall a, In a l -> f a = g a) -> mapM f l = mapM g l.
Proof.
  intros H. induction l as [|a l IH]; cbn; auto. rewrite H by (left; auto).
  rewrite IH by (intros; apply H; right; auto). reflexivity.
Qed.
Lemma mapM_app {A B} (f : A -> res B) a b : mapM f (a ++ b) =
  (let* x := mapM f a in let* y := mapM f b in Ok (x ++ y)).
Proof.
  induction a as [|h a IH]; cbn; [destruct (mapM f b); reflexivity|].
  destruct (f h); cbn; auto. rewrite IH. destruct (mapM f a); cbn; auto. destruct (mapM f b); reflexivity.
Qed.
Lemma mapM_length {A B} (f : A -> res B) l r : mapM f l = Ok r -> length r = length l.
Proof. intros H. apply mapM_ok_Forall2 in H. induction H; cbn; congruence. Qed.

(** a slice of a list of lines by consecutive indices *)
Lemma nth_error_mid {A} (a : list A) x b : nth_error (a ++ x :: b) (length a) = Some x.
Proof. rewrite nth_error_app2 by lia. rewrite Nat.sub_diag. reflexivity. Qed.
Lemma mapM_seq_slice {A B} (f : A -> res B) (pre xs post : list A) :
  mapM (fun i => bind (of_option IndexError (nth_error (pre ++ xs ++ post) i)) f) (seq (length pre) (length xs)) = mapM f xs.
Proof.
  revert pre. induction xs as [|x xs IH]; intros pre; auto.
  cbn [length seq mapM app]. rewrite nth_error_mid. cbn [of_option bind].
  destruct (f x); cbn [bind]; auto.
  specialize (IH (pre ++ [x])). rewrite app_length in IH. cbn [length] in IH.
  replace (length pre + 1) with (S (length pre)) in IH by lia.
  rewrite <- app_assoc in IH. cbn [app] in IH. rewrite IH. reflexivity.
Qed.
