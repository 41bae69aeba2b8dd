From Coq Require Import Ascii String List NArith ZArith Bool Lia Arith.
From Verif Require Import PyBase PyNum PyStrLemmas PyNumLemmas PyFmtLemmas PyLines UtilsModel KpointsModel KpointsSpec KpointsProofs KpointsRoundTrip KpointsModes.
Import ListNotations.
Local Open Scope list_scope.
Local Open Scope bool_scope.
Local Open Scope nat_scope.

(** ** Line mode *)
Definition lpoint (prec : nat) (p : kpoint) : str := fline prec (firstn 3 (kp_point p)).
(** the coordinate lines, a blank line between two consecutive pairs *)
Fixpoint paired2 (ls : list str) : list str :=
  match ls with
  | [] => []
  | [a] => [a]
  | a :: b :: r => match r with [] => [a; b] | _ => a :: b :: [] :: paired2 r end
  end.
Lemma two_ind {A} (P : list A -> Prop) : P [] -> (forall a, P [a]) -> (forall a b r, P r -> P (a :: b :: r)) -> forall l, P l.
Proof.
  intros H0 H1 H2 l. assert (P l /\ forall a, P (a :: l)) as [H _]; [|exact H].
  induction l as [|b l [I1 I2]]; auto.
Qed.

Lemma pair_lines_spec ls : ls <> [] ->
  pair_lines false (map (fun l => l ++ [nl]) ls) =
    unlines (paired2 ls) ++ (if Nat.even (length ls) then [nl] else []).
Proof.
  pattern ls. apply two_ind; clear ls.
  - congruence.
  - intros a _. cbn. rewrite !app_nil_r. reflexivity.
  - intros a b r IH _. cbn [map pair_lines negb paired2 length Nat.even].
    destruct r as [|c r].
    + cbn. rewrite !app_nil_r. rewrite !app_assoc. reflexivity.
    + rewrite IH by discriminate. cbn [length]. rewrite !unlines_cons. asc. reflexivity.
Qed.
Lemma paired2_ne ls : ls <> [] -> paired2 ls <> [].
Proof. destruct ls as [|a [|b [|c r]]]; cbn; congruence. Qed.
Lemma paired2_last ls d : Forall (fun l => l <> []) ls -> ls <> [] -> last (paired2 ls) d <> [].
Proof.
  pattern ls. apply two_ind; clear ls.
  - congruence.
  - intros a H _. inversion H; auto.
  - intros a b r IH H _. inversion H; subst. inversion H3; subst. cbn [paired2]. destruct r as [|c r]; [cbn; auto|].
    specialize (IH H5 ltac:(discriminate)). pose proof (paired2_ne (c :: r) ltac:(discriminate)) as N.
    destruct (paired2 (c :: r)) as [|e q]; [congruence|]. exact IH.
Qed.
Lemma paired2_nobreak ls : forallb nobreak ls = true -> forallb nobreak (paired2 ls) = true.
Proof.
  pattern ls. apply two_ind; clear ls; auto.
  intros a b r IH H. cbn [forallb] in H. apply andb_true_iff in H as [H1 H]. apply andb_true_iff in H as [H2 H].
  cbn [paired2]. destruct r as [|c r]; cbn [forallb]; rewrite H1, H2; auto.
Qed.

Lemma removelast_nl a : removelast (a ++ [nl]) = a.
Proof. apply removelast_last. Qed.
(** a text whose lines are [ls], the last line not empty, with or without a final newline *)
Definition lines_text (ls : list str) (t : str) : Prop := t = unlines ls \/ t ++ [nl] = unlines ls.
Lemma line_text hdr ls : hdr <> [] ->
  lines_text (hdr ++ paired2 ls) (removelast (unlines hdr ++ pair_lines false (map (fun l => l ++ [nl]) ls))).
Proof.
  intros Hh. destruct ls as [|a r].
  - cbn [map pair_lines paired2]. rewrite !app_nil_r. right.
    destruct (exists_last Hh) as [h [x ->]]. rewrite unlines_app, unlines_one, app_assoc, removelast_nl. reflexivity.
  - rewrite pair_lines_spec by discriminate. set (ls := a :: r) in *.
    match goal with |- context [Nat.even ?n] => destruct (Nat.even n) end; cbv iota.
    + left. rewrite app_assoc, removelast_nl, unlines_app. reflexivity.
    + right. rewrite app_nil_r, <- unlines_app.
      assert (hdr ++ paired2 ls <> []) as N. { destruct hdr; [congruence|discriminate]. }
      destruct (exists_last N) as [h [x ->]]. rewrite unlines_app, unlines_one, app_assoc, removelast_nl. reflexivity.
Qed.
Lemma lines_text_split ls t : forallb nobreak ls = true -> last ls [] <> [] -> lines_text ls t -> splitlines t = ls.
Proof.
  intros N L [-> | H].
  - apply splitlines_unlines; auto.
  - destruct ls as [|a r] using rev_ind; [cbn in L; congruence|]. rewrite last_last in L.
    rewrite unlines_app, unlines_one, app_assoc in H. apply app_inj_tail in H as [-> _].
    rewrite forallb_app in N. apply andb_true_iff in N as [N1 N2]. cbn [forallb] in N2. rewrite andb_true_r in N2.
    apply splitlines_unlines_last; auto.
Qed.
Lemma In_unlines c ls : In c (unlines ls) -> c = nl \/ exists l, In l ls /\ In c l.
Proof.
  induction ls as [|l ls IH]; [intros []|]. rewrite unlines_cons. intros H. apply in_app_or in H as [H|[H|H]]; auto.
  - right. exists l. split; [left|]; auto.
  - destruct (IH H) as [H'|[x [H1 H2]]]; auto. right. exists x. split; [right|]; auto.
Qed.
Lemma lines_text_only_nl ls t : forallb nobreak ls = true -> lines_text ls t -> only_nl t.
Proof.
  intros N H c Hc B.
  assert (In c (unlines ls)) as K. { destruct H as [<- | <-]; auto. apply in_or_app; auto. }
  apply In_unlines in K as [K|[l [H1 H2]]]; auto. rewrite forallb_forall in N. apply N in H1.
  unfold nobreak in H1. rewrite forallb_forall in H1. apply H1 in H2. rewrite B in H2. discriminate.
Qed.
Lemma readlines_ne t : ~ In [] (readlines t).
Proof.
  induction t as [|c r IH]; [intros []|]. cbn [readlines]. destruct (aeqb c nl).
  - intros [H|H]; [discriminate|auto].
  - destruct (readlines r) as [|l q]; [intros [H|[]]; discriminate|].
    intros [H|H]; [discriminate|]. apply IH. right; auto.
Qed.

(** the lines as the file channel presents them, up to trailing newlines *)
Definition seen (l : str) : str := match l with [] => [nl] | _ => l end.
Lemma file_lines ls t : forallb nobreak ls = true -> last ls [] <> [] -> lines_text ls t ->
  Forall2 (fun l l' => lsame l l' /\ bare l = bare l') (map seen ls) (readlines t).
Proof.
  intros N L H. pose proof (lines_withnl t (lines_text_only_nl ls t N H)) as W.
  rewrite (lines_text_split ls t N L H) in W. pose proof (readlines_ne t) as R.
  assert (forall l, In l ls -> nobreak l = true) as N' by (rewrite forallb_forall in N; auto). clear -W R N'.
  induction W as [|l l' a b H _ IH]; cbn [map]; constructor.
  - destruct H as [-> | ->].
    + destruct l as [|c l]; [exfalso; apply R; left; auto|]. split; reflexivity.
    + destruct l as [|c l]; [split; reflexivity|]. cbn [seen]. split; [unfold lsame; rewrite strip_nl; reflexivity|].
      unfold bare. assert (seqb ((c :: l) ++ [nl]) [nl] = false) as ->.
      { apply seqb_neq. intros K. destruct l; discriminate. }
      apply seqb_neq. intros K. specialize (N' (c :: l) (or_introl eq_refl)). rewrite K in N'. discriminate.
  - apply IH; [intros K; apply R; right; auto|]. intros x Hx. apply N'. right; auto.
Qed.

(** what a reader sees of a point written in line mode *)
Definition line_point (prec : nat) (p : kpoint) : kpoint :=
  Kpoint (map (reread prec) (firstn 3 (kp_point p))) (Some (float_of_Z 1)) true.
Definition empty_point : kpoint := Kpoint [] (Some (float_of_Z 1)) true.
Fixpoint with_gaps (ps : list kpoint) : list kpoint :=
  match ps with
  | [] => []
  | [a] => [a]
  | a :: b :: r => match r with [] => [a; b] | _ => a :: b :: empty_point :: with_gaps r end
  end.

Definition lines_points (l : str) : res (list kval) :=
  if seqb l [nl] then Ok []
  else let* co := mapM get_float (firstn 3 (split_ws l)) in Ok [KPt (Kpoint co (Some (float_of_Z 1)) true)].
Lemma read_line_points_eq ls : read_line_points ls = let* r := mapM lines_points ls in Ok (concat r).
Proof. reflexivity. Qed.
Lemma firstn_firstn3 {A} (l : list A) : firstn 3 (firstn 3 l) = firstn 3 l.
Proof. rewrite firstn_firstn. reflexivity. Qed.
Lemma lpoint_ne prec p : three p -> lpoint prec p <> [].
Proof.
  unfold three, lpoint. destruct (kp_point p) as [|x [|y [|z r]]]; cbn [length]; try lia. intros _ H.
  pose proof (fline_read prec (firstn 3 (x :: y :: z :: r))) as K. rewrite H in K. discriminate.
Qed.
Lemma lpoint_nobreak prec p : nobreak (lpoint prec p) = true.
Proof. apply fline_nobreak. Qed.
Lemma lpoint_read prec p : three p -> lines_points (lpoint prec p) = Ok [KPt (line_point prec p)].
Proof.
  intros T. unfold lines_points. assert (seqb (lpoint prec p) [nl] = false) as ->.
  { apply seqb_neq. intros K. pose proof (lpoint_nobreak prec p) as N. rewrite K in N. discriminate. }
  unfold lpoint, fline, fmtf. rewrite split_ws_join_fmtf. rewrite firstn_map, firstn_firstn3.
  rewrite get_floats_fixed. reflexivity.
Qed.
Lemma seen_ne l : l <> [] -> seen l = l.
Proof. destruct l; [intros H; exfalso; apply H; reflexivity|reflexivity]. Qed.
Lemma read_paired_file prec ps : Forall three ps ->
  exists r, mapM lines_points (map seen (paired2 (map (lpoint prec) ps))) = Ok r /\
    concat r = map (fun p => KPt (line_point prec p)) ps.
Proof.
  pattern ps. apply two_ind; clear ps.
  - exists []. auto.
  - intros a H. inversion H; subst. cbn [map paired2 mapM]. rewrite seen_ne by (apply lpoint_ne; auto).
    rewrite lpoint_read by auto. cbn [bind]. eexists. split; reflexivity.
  - intros a b r IH H. inversion H; subst. inversion H3; subst. cbn [map paired2].
    destruct r as [|c r].
    + cbn [map mapM]. rewrite !seen_ne by (apply lpoint_ne; auto). rewrite !lpoint_read by auto. eexists. split; reflexivity.
    + destruct (IH H5) as [q [E1 E2]]. remember (c :: r) as r' eqn:Er.
      assert (map (lpoint prec) r' <> []) as Nr by (rewrite Er; discriminate).
      destruct (map (lpoint prec) r') as [|l0 l1] eqn:El; [congruence|].
      cbn [map mapM]. rewrite !seen_ne by (apply lpoint_ne; auto). rewrite !lpoint_read by auto. cbn [bind].
      change (lines_points (seen [])) with (Ok [] : res (list kval)). cbn [bind]. rewrite E1. cbn [bind].
      eexists. split; [reflexivity|]. cbn [concat app]. rewrite E2. reflexivity.
Qed.
Lemma read_paired_string prec ps : Forall three ps ->
  exists r, mapM lines_points (paired2 (map (lpoint prec) ps)) = Ok r /\
    concat r = map KPt (with_gaps (map (line_point prec) ps)).
Proof.
  pattern ps. apply two_ind; clear ps.
  - exists []. auto.
  - intros a H. inversion H; subst. cbn [map paired2 mapM].
    rewrite lpoint_read by auto. cbn [bind]. eexists. split; reflexivity.
  - intros a b r IH H. inversion H; subst. inversion H3; subst. cbn [map paired2 with_gaps].
    destruct r as [|c r].
    + cbn [map mapM]. rewrite !lpoint_read by auto. eexists. split; reflexivity.
    + destruct (IH H5) as [q [E1 E2]]. remember (c :: r) as r' eqn:Er.
      destruct (map (lpoint prec) r') as [|l0 l1] eqn:El; [subst; discriminate|].
      destruct (map (line_point prec) r') as [|l2 l3] eqn:Em; [subst; discriminate|].
      cbn [map mapM]. rewrite !lpoint_read by auto. cbn [bind].
      change (lines_points []) with (Ok [KPt empty_point] : res (list kval)). cbn [bind]. rewrite E1. cbn [bind].
      eexists. split; [reflexivity|]. cbn [concat app]. rewrite E2. reflexivity.
Qed.

Definition lhead (co : kval) (n : Z) : list str := [cline co; fmtd6 n; lit "Line-mode"; lit "Direct"].
Definition limage (co : kval) (pts : list kpoint) (n : Z) : kentries :=
  make_entries (KStr (shown_comment co)) KNone KNone KNone (KList (map KPt pts)) KNone KNone KLine KNone (KInt n).
Lemma read_llines co n rest pts : comment_ok co -> read_line_points rest = Ok (map KPt pts) ->
  from_list (lhead co n ++ rest) = Ok (limage co pts n).
Proof.
  intros C R. apply plain_shown in C. unfold from_list, lhead. cbn [app].
  cbn [line_at py_nth nth_error of_option bind]. fold (nohash (cline co)).
  assert (strip (nohash (cline co)) = shown_comment co) as -> by (apply comment_read; auto).
  unfold fmtd6. rewrite split_ws_fmtd. cbn [py_nth nth_error of_option bind]. rewrite get_int_str. cbn [bind].
  change (head_char (strip (lit "Line-mode"))) with (Ok "L"%char : res ascii). cbn [bind].
  change (aeqb (lower1 "L"%char) "l"%char) with true. rewrite andb_false_r. cbn [bind].
  assert ((if (n <=? 0)%Z then read_automatic (lower1 "L") (cline co :: fmt_d 6 n :: lit "Line-mode" :: lit "Direct" :: rest)
           else Ok (KNone, KNone, KNone, KNone)) = Ok (KNone, KNone, KNone, KNone)) as -> by (destruct (n <=? 0)%Z; reflexivity).
  cbn [bind]. change (split_ws (lit "Direct")) with [lit "Direct"]. cbn [py_nth nth_error of_option bind].
  change (head_char (lit "Direct")) with (Ok "D"%char : res ascii). cbn [bind].
  change (aeqb (lower1 "D") "r" || aeqb (lower1 "D") "d") with true. cbv iota.
  cbn [skipn]. rewrite R. reflexivity.
Qed.
Lemma limage_valid co pts n : validate (limage co pts n) = Ok tt.
Proof. apply validate_make_ok; reflexivity. Qed.

Definition llines (prec : nat) (co : kval) (ps : list kpoint) (n : Z) : list str :=
  lhead co n ++ paired2 (map (lpoint prec) ps).
Lemma llines_nobreak prec co ps n : comment_ok co -> forallb nobreak (llines prec co ps n) = true.
Proof.
  intros C. apply plain_shown in C. unfold llines, lhead. rewrite forallb_app. cbn [forallb].
  unfold cline. rewrite comment_nobreak by auto. unfold fmtd6. rewrite nobreak_fmtd.
  change (nobreak (lit "Line-mode")) with true. change (nobreak (lit "Direct")) with true. cbn [andb].
  apply paired2_nobreak. apply forallb_forall. intros s Hs. apply in_map_iff in Hs as [p [<- _]]. apply lpoint_nobreak.
Qed.
Lemma last_app {A} (a b : list A) d : b <> [] -> last (a ++ b) d = last b d.
Proof.
  intros H. destruct (exists_last H) as [q [x ->]]. rewrite app_assoc, !last_last. reflexivity.
Qed.
Lemma llines_last prec co ps n : Forall three ps -> last (llines prec co ps n) [] <> [].
Proof.
  intros F. unfold llines. destruct ps as [|p ps].
  - cbn. discriminate.
  - rewrite last_app by (apply paired2_ne; discriminate). apply paired2_last; [|discriminate].
    apply Forall_forall. intros s Hs. apply in_map_iff in Hs as [q [<- Hq]]. apply lpoint_ne. rewrite Forall_forall in F; auto.
Qed.

Lemma line_channels prec co ps n t : comment_ok co -> Forall three ps -> lines_text (llines prec co ps n) t ->
  kpoints_of_file t = Ok (limage co (map (line_point prec) ps) n) /\
  kpoints_of_handler t = Ok (limage co (map (line_point prec) ps) n) /\
  kpoints_of_string t = Ok (limage co (with_gaps (map (line_point prec) ps)) n).
Proof.
  intros C F H. pose proof (llines_nobreak prec co ps n C) as N. pose proof (llines_last prec co ps n F) as L.
  rewrite of_string_eq, of_file_eq, of_handler_eq.
  rewrite translate_nochange by (apply only_nl_nocr; eapply lines_text_only_nl; eauto).
  rewrite (lines_text_split _ t N L H).
  assert (from_list (readlines t) = Ok (limage co (map (line_point prec) ps) n)) as E1.
  { pose proof (file_lines _ t N L H) as FL.
    rewrite <- (from_list_same (map seen (llines prec co ps n)) (readlines t)).
    - unfold llines. rewrite map_app. destruct (read_paired_file prec ps F) as [r [R1 R2]].
      assert (map seen (lhead co n) = lhead co n) as ->.
      { unfold lhead. cbn [map]. assert (fmtd6 n <> []) as K.
        { intros K. pose proof (split_ws_fmtd 6 n) as S. unfold fmtd6 in K. rewrite K in S. discriminate. }
        rewrite (seen_ne (fmtd6 n)) by auto. rewrite (seen_ne (cline co)) by (unfold cline; discriminate). reflexivity. }
      apply read_llines; auto. rewrite read_line_points_eq, R1. cbn [bind]. rewrite R2, map_map. reflexivity.
    - eapply Forall2_weaken; [|exact FL]. intros x y _ [K _]. exact K.
    - right. apply Forall2_skipn. exact FL. }
  assert (from_list (llines prec co ps n) = Ok (limage co (with_gaps (map (line_point prec) ps)) n)) as E2.
  { destruct (read_paired_string prec ps F) as [r [R1 R2]].
    apply read_llines; auto. rewrite read_line_points_eq, R1. cbn [bind]. rewrite R2. reflexivity. }
  rewrite E1, E2. unfold build. cbn [bind]. rewrite !limage_valid. auto.
Qed.

(** writing *)
Lemma write_lp_inv prec v s : write_line_point prec v = Ok s ->
  exists p, v = KPt p /\ three p /\ s = lpoint prec p ++ [nl].
Proof.
  destruct v as [| | | | | |p|]; try discriminate. cbn [write_line_point]. intros H.
  exists p. split; auto. unfold three, lpoint.
  destruct (kp_point p) as [|x0 [|x1 [|x2 r]]]; try discriminate. cbn [py_nth nth_error of_option bind] in H.
  cbn [length]. split; [lia|]. inversion H. unfold fline, sp1. cbn [firstn map join]. asc. reflexivity.
Qed.
Lemma write_lp_eq prec p : three p -> write_line_point prec (KPt p) = Ok (lpoint prec p ++ [nl]).
Proof.
  unfold three, lpoint. cbn [write_line_point]. destruct (kp_point p) as [|x0 [|x1 [|x2 r]]]; cbn [length]; try lia. intros _.
  cbn [py_nth nth_error of_option bind]. unfold fline, sp1. cbn [firstn map join]. asc. reflexivity.
Qed.
Lemma write_lps_inv prec pts ss : mapM (write_line_point prec) pts = Ok ss ->
  exists ps, pts = map KPt ps /\ Forall three ps /\ ss = map (fun l => l ++ [nl]) (map (lpoint prec) ps).
Proof.
  revert ss. induction pts as [|v pts IH]; intros ss; cbn [mapM].
  - intros [= <-]. exists []. auto.
  - intros H. apply bind_ok in H as [s [H1 H]]. apply bind_ok in H as [ss' [H2 H]]. inversion H; subst.
    destruct (IH ss' H2) as [ps [-> [F ->]]]. apply write_lp_inv in H1 as [p [-> [T ->]]].
    exists (p :: ps). cbn [map]. auto.
Qed.
Lemma write_lps_eq prec ps : Forall three ps ->
  mapM (write_line_point prec) (map KPt ps) = Ok (map (fun l => l ++ [nl]) (map (lpoint prec) ps)).
Proof.
  induction 1 as [|p ps T F IH]; auto. cbn [map mapM]. rewrite write_lp_eq by auto. cbn [bind]. rewrite IH. reflexivity.
Qed.
Definition ltext (prec : nat) (co : kval) (ps : list kpoint) (n : Z) : str :=
  removelast (unlines (lhead co n) ++ pair_lines false (map (fun l => l ++ [nl]) (map (lpoint prec) ps))).
Lemma ltext_lines prec co ps n : lines_text (llines prec co ps n) (ltext prec co ps n).
Proof. apply line_text. discriminate. Qed.

Lemma write_line_inv prec es txt : get_string prec es = Ok txt -> holds es "mode" KLine ->
  exists co ps nu, holds es "comment" co /\ holds es "points" (KList (map KPt ps)) /\
    holds es "num_kpoints" nu /\ is_int nu = true /\ ok_comment co = true /\ Forall three ps /\
    txt = ltext prec co ps (int_value nu).
Proof.
  unfold get_string, write. intros H Hm. apply bind_ok in H as [[] [V H]].
  apply validate_spec in V as (co & po & ce & di & gv & sh & mo & nu & te & vo & V).
  destruct V as [A1 A2 A3 A4 A5 A6 A7 A8 A9 A10 S T]. repeat (apply andb_true_iff in T as [T ?]).
  unfold holds, key in *. rewrite A1 in H. cbn [of_option bind] in H.
  assert ((match co with KNone => Ok (lit "# No comment") | KStr s => Ok (lit "# " ++ s) | _ => Exn TypeError end) = Ok (cline co)) as E.
  { destruct co; try discriminate; reflexivity. }
  rewrite E in H. cbn [bind] in H. rewrite Hm in H. cbn [of_option bind KLine] in H.
  change (seqb (lit "line") (lit "explicit")) with false in H.
  change (seqb (lit "line") (lit "automatic")) with false in H.
  change (seqb (lit "line") (lit "line")) with true in H. cbv iota in H.
  apply bind_ok in H as [b [Hb H]]. inversion H. subst txt.
  unfold write_line, key in Hb. rewrite A8, A2 in Hb. cbn [of_option bind] in Hb.
  unfold as_int in Hb. rewrite H2 in Hb. cbn [bind] in Hb.
  destruct po as [| | | | |l| |]; try discriminate. cbn [points_of bind] in Hb.
  apply bind_ok in Hb as [ss [Hs Hb]]. inversion Hb. subst b.
  apply write_lps_inv in Hs as [ps [-> [F ->]]].
  exists co, ps, nu. repeat split; auto. unfold ltext, remove_newline. f_equal.
  unfold lhead. rewrite !unlines_cons. change (unlines []) with (@nil ascii). asc. reflexivity.
Qed.
Lemma write_limage prec co ps n : Forall three ps ->
  get_string prec (limage co ps n) = Ok (ltext prec co ps n).
Proof.
  intros F. unfold get_string, write. rewrite limage_valid. cbn [bind]. unfold key.
  change (dget (lit "comment") (limage co ps n)) with (Some (KStr (shown_comment co))).
  change (dget (lit "mode") (limage co ps n)) with (Some KLine). cbn [of_option bind KLine].
  change (seqb (lit "line") (lit "explicit")) with false.
  change (seqb (lit "line") (lit "automatic")) with false.
  change (seqb (lit "line") (lit "line")) with true. cbv iota.
  unfold write_line, key.
  change (dget (lit "num_kpoints") (limage co ps n)) with (Some (KInt n)).
  change (dget (lit "points") (limage co ps n)) with (Some (KList (map KPt ps))).
  cbn [of_option bind as_int is_int int_value points_of]. rewrite write_lps_eq by auto. cbn [bind].
  unfold ltext, remove_newline. do 2 f_equal.
  unfold lhead. rewrite !unlines_cons. change (unlines []) with (@nil ascii). unfold cline. asc. reflexivity.
Qed.
Lemma lpoint_image prec p : Forall wf_float (kp_point p) -> lpoint prec (line_point prec p) = lpoint prec p.
Proof.
  intros W. unfold lpoint, line_point. cbn [kp_point]. rewrite firstn_map, firstn_firstn3. apply fline_image.
  rewrite Forall_forall in *. intros x Hx. apply W. rewrite <- (firstn_skipn 3 (kp_point p)). apply in_or_app. auto.
Qed.
Lemma ltext_image prec co ps n : Forall (fun p => Forall wf_float (kp_point p)) ps ->
  ltext prec co (map (line_point prec) ps) n = ltext prec co ps n.
Proof.
  intros W. unfold ltext. do 3 f_equal. rewrite !map_map. apply map_ext_in. intros p Hp.
  rewrite lpoint_image; auto. rewrite Forall_forall in W; auto.
Qed.
Lemma line_point_three prec p : three p -> three (line_point prec p).
Proof. unfold three, line_point. cbn [kp_point]. rewrite map_length, firstn_length. lia. Qed.
