(** Lemmas about IoModel: the calls a writer makes, run on a file object, produce the
    text of the writers of IncarModel, KpointsModel and PoscarModel. *)
From Coq Require Import Ascii String List NArith ZArith Bool Lia Arith.
From Verif Require Import PyBase PyNum PyStrLemmas UtilsModel IncarModel KpointsModel PoscarModel IoModel.
Import ListNotations.
Local Open Scope list_scope.
Local Open Scope bool_scope.
Local Open Scope nat_scope.

Definition puts (l : list op) : str := flat_map (fun o => match o with Put t => t | Cut => [] end) l.
Arguments puts l : simpl never.
Lemma puts_put t l : puts (Put t :: l) = t ++ puts l.
Proof. reflexivity. Qed.
Definition nocut (l : list op) : Prop := Forall (fun o => o <> Cut) l.
Lemma Ok_inj {X} (a b : X) : Ok a = Ok b -> a = b.
Proof. congruence. Qed.
Definition outcome {A} (r : res A) : res unit := match r with Ok _ => Ok tt | Exn e => Exn e end.

Lemma puts_app a b : puts (a ++ b) = puts a ++ puts b.
Proof. apply flat_map_app. Qed.
Lemma nocut_app a b : nocut a -> nocut b -> nocut (a ++ b).
Proof. intros; apply Forall_app; auto. Qed.

(** ** Simulation: after the prefix [pre], the writer [w] ends as [r] does, and emits its text *)
Record simp (pre : str) (w : W unit) (r : res str) : Prop := Simp {
  simp_end : snd w = outcome r;
  simp_nocut : nocut (fst w);
  simp_text : forall t, r = Ok t -> pre ++ puts (fst w) = t }.

Lemma simp_ret pre t : pre = t -> simp pre (wret tt) (Ok t).
Proof. intros <-. split; [reflexivity|constructor|]. intros t E. inversion E. cbn. apply app_nil_r. Qed.
Lemma simp_put pre t w r : simp (pre ++ t) w r -> simp pre (put t ;;; w) r.
Proof.
  intros [H1 H2 H3]. split; cbn.
  - auto.
  - constructor; [discriminate|auto].
  - intros x E. rewrite puts_put, app_assoc. auto.
Qed.
Lemma simp_last pre t x : pre ++ t = x -> simp pre (put t) (Ok x).
Proof.
  intros <-. split; cbn; auto.
  - constructor; [discriminate|constructor].
  - intros x E. rewrite puts_put. cbn. rewrite app_nil_r. inversion E. reflexivity.
Qed.
Lemma simp_exn pre e : simp pre (lift (Exn e)) (Exn e).
Proof. split; cbn; auto; [constructor|discriminate]. Qed.
Lemma simp_lift {B} pre (r0 : res B) k r : (forall a, r0 = Ok a -> simp pre (k a) (r a)) -> simp pre (wbind (lift r0) k) (let* a := r0 in r a).
Proof.
  intros H. destruct r0 as [a|e].
  - destruct (H a eq_refl) as [H1 H2 H3]. split; auto.
  - split; cbn; auto; [constructor|discriminate].
Qed.
Lemma simp_seq pre w1 r1 w2 r : simp [] w1 r1 -> (forall a, r1 = Ok a -> simp (pre ++ a) w2 (r a)) -> simp pre (w1 ;;; w2) (let* a := r1 in r a).
Proof.
  intros [H1 H2 H3] H. destruct r1 as [a|e]; cbn in *.
  - destruct (H a eq_refl) as [K1 K2 K3]. specialize (H3 a eq_refl). cbn in H3. destruct w1 as [o1 s1]. cbn in *. subst s1. split; cbn.
    + auto.
    + apply nocut_app; auto.
    + intros t E. rewrite puts_app, H3, app_assoc. auto.
  - destruct w1 as [o1 s1]. cbn in *. subst s1. split; cbn; auto. discriminate.
Qed.
Lemma simp_pre pre w r : simp [] w r -> simp pre w (let* b := r in Ok (pre ++ b)).
Proof.
  intros [H1 H2 H3]. split; auto.
  - rewrite H1. destruct r; reflexivity.
  - intros t E. destruct r as [b|e]; cbn in E; [|discriminate]. apply Ok_inj in E. subst t. f_equal. apply (H3 b eq_refl).
Qed.
Lemma simp_ext pre w r r' : r = r' -> simp pre w r -> simp pre w r'.
Proof. intros ->; auto. Qed.
(** a loop that computes a text and writes it *)
Lemma simp_each {X} (g : X -> res str) (k : X -> W unit) l :
  (forall x, simp [] (k x) (g x)) -> simp [] (each k l) (let* ls := mapM g l in Ok (concat ls)).
Proof.
  intros H. induction l as [|x l IH]; cbn [each mapM].
  - apply simp_ret. reflexivity.
  - apply (simp_ext _ _ (let* a := g x in let* b := (let* ls := mapM g l in Ok (concat ls)) in Ok (a ++ b))).
    + destruct (g x); cbn; [|reflexivity]. destruct (mapM g l); reflexivity.
    + apply simp_seq; auto. intros a Ea. apply simp_pre. auto.
Qed.
Lemma simp_each1 {X} (g : X -> res str) l : simp [] (each (fun x => do* t := lift (g x) in put t) l) (let* ls := mapM g l in Ok (concat ls)).
Proof.
  apply simp_each. intros x. apply (simp_ext _ _ (let* t := g x in Ok t)). { destruct (g x); reflexivity. }
  apply simp_lift. intros t _. apply simp_last. reflexivity.
Qed.
Lemma mapM_each {X} (g : X -> res str) l : mapM (fun x => let* t := g x in Ok (t ++ [nl])) l = let* ls := mapM g l in Ok (map (fun t => t ++ [nl]) ls).
Proof. induction l as [|x l IH]; cbn; [reflexivity|]. destruct (g x); cbn; [|reflexivity]. rewrite IH. destruct (mapM g l); reflexivity. Qed.
Lemma simp_lines {X} (g : X -> res str) l :
  simp [] (each (fun x => do* t := lift (g x) in put (t ++ [nl])) l) (let* ls := mapM g l in Ok (concat (map (fun t => t ++ [nl]) ls))).
Proof.
  eapply simp_ext; [|apply (simp_each (fun x => let* t := g x in Ok (t ++ [nl])))].
  - rewrite mapM_each. destruct (mapM g l); reflexivity.
  - intros x. apply simp_lift. intros t _. apply simp_last. reflexivity.
Qed.

(** ** The writers *)
Lemma simp_incar comments x : simp [] (incar_w comments x) (Ok (IncarModel.write comments x)).
Proof.
  unfold incar_w, IncarModel.write. induction (ssort (dkeys (ents x))) as [|k l IH]; cbn [each map concat]; [apply simp_ret; reflexivity|].
  apply (simp_ext _ _ (let* a := Ok (match dget k (ents x) with Some it => write_item comments k it | None => [] end) in
    let* b := Ok (concat (map (fun k => match dget k (ents x) with Some it => write_item comments k it | None => [] end) l)) in Ok (a ++ b))); [reflexivity|].
  apply simp_seq.
  - unfold incar_put. destruct (dget k (ents x)); [apply simp_last; reflexivity|apply simp_ret; reflexivity].
  - intros a _. apply simp_pre. exact IH.
Qed.

Lemma simp_tetra prec es : simp [] (tetra_w prec es) (write_tetra prec es).
Proof.
  unfold tetra_w, write_tetra. apply simp_lift. intros t _. destruct t; try apply simp_exn; [apply simp_ret; reflexivity|].
  apply simp_put. apply simp_lift. intros v _. apply simp_lift. intros x _. apply simp_put.
  eapply simp_ext; [|apply simp_pre; apply simp_each1].
  destruct (mapM write_tetra_line l); cbn [bind]; [|reflexivity]. f_equal. rewrite ?app_nil_l, <- ?app_assoc. reflexivity.
Qed.
Lemma simp_explicit prec es : simp [] (explicit_w prec es) (write_explicit prec es).
Proof.
  unfold explicit_w, write_explicit. apply simp_lift. intros n _. apply simp_lift. intros nz _. apply simp_put. apply simp_put.
  apply simp_lift. intros p _. apply simp_lift. intros pts _.
  eapply simp_ext; [|apply simp_seq; [apply simp_each1|intros a _; apply simp_pre; apply simp_tetra]].
  destruct (mapM (write_point prec) pts); cbn [bind]; [|reflexivity].
  destruct (write_tetra prec es); cbn [bind]; [|reflexivity]. f_equal. rewrite ?app_nil_l, <- ?app_assoc. reflexivity.
Qed.
Lemma simp_automatic prec es : simp [] (automatic_w prec es) (write_automatic prec es).
Proof.
  unfold automatic_w, write_automatic. apply simp_put. apply simp_lift. intros c _. apply simp_lift. intros cs _. apply simp_put.
  apply simp_lift. intros d _. apply simp_seq.
  { destruct d; try apply simp_exn; [apply simp_ret; reflexivity|]. apply simp_lift. intros l3 _. apply simp_last. reflexivity. }
  intros ds _. apply simp_lift. intros g _. apply simp_seq.
  { destruct g; try apply simp_exn; [apply simp_ret; reflexivity|]. apply simp_each1. }
  intros gs _. apply simp_lift. intros s _. apply simp_lift. intros ss _. apply simp_last. rewrite ?app_nil_l, <- ?app_assoc. reflexivity.
Qed.
Lemma simp_line_points prec : forall pts second, simp [] (line_points_w prec second pts) (let* ls := mapM (write_line_point prec) pts in Ok (pair_lines second ls)).
Proof.
  induction pts as [|v pts IH]; intros second; cbn [line_points_w mapM]; [apply simp_ret; reflexivity|].
  apply (simp_ext _ _ (let* t := write_line_point prec v in
     let* b := (let* ls := mapM (write_line_point prec) pts in Ok (pair_lines (negb second) ls)) in Ok ((t ++ (if second then [nl] else [])) ++ b))).
  { destruct (write_line_point prec v); cbn; [|reflexivity]. destruct (mapM _ pts); cbn; [|reflexivity]. rewrite app_assoc. reflexivity. }
  apply simp_lift. intros t _. apply simp_put. cbn [app].
  apply (simp_ext _ _ (let* c := Ok (if second then [nl] else []) in
     let* b := (let* ls := mapM (write_line_point prec) pts in Ok (pair_lines (negb second) ls)) in Ok ((t ++ c) ++ b))); [reflexivity|].
  apply simp_seq. { destruct second; [apply simp_last; reflexivity|apply simp_ret; reflexivity]. }
  intros c _. apply simp_pre. apply IH.
Qed.
(** line mode: the text with its last newline, then that newline is cut *)
Definition line0_w (prec : nat) (es : kentries) : W unit :=
  do* n := lift (key es "num_kpoints") in
  do* nz := lift (as_int n) in
  put (fmtd6 nz ++ [nl]) ;;;
  put (lit "Line-mode" ++ [nl]) ;;;
  put (lit "Direct" ++ [nl]) ;;;
  do* p := lift (key es "points") in
  do* pts := lift (points_of p) in
  line_points_w prec false pts.
Lemma simp_line0 prec es : simp [] (line0_w prec es) (write_line prec es).
Proof.
  unfold line0_w, write_line. apply simp_lift. intros n _. apply simp_lift. intros nz _. apply simp_put. apply simp_put. apply simp_put.
  apply simp_lift. intros p _. apply simp_lift. intros pts _.
  eapply simp_ext; [|apply simp_pre; apply simp_line_points].
  destruct (mapM (write_line_point prec) pts); cbn [bind]; [|reflexivity]. f_equal. rewrite ?app_nil_l, <- ?app_assoc. reflexivity.
Qed.
Lemma wbind_assoc {X Y} (m : W X) (k : X -> W Y) (w : W unit) : ((wbind m k) ;;; w) = wbind m (fun a => (k a ;;; w)).
Proof.
  destruct m as [l [a|e]]; unfold wbind; cbn; [|reflexivity]. destruct (k a) as [l2 [b|e]]; cbn; [rewrite app_assoc; reflexivity|reflexivity].
Qed.
Lemma wbind_ext {X Y} (m : W X) (k k' : X -> W Y) : (forall a, k a = k' a) -> wbind m k = wbind m k'.
Proof. intros H. unfold wbind. destruct (snd m); [rewrite H|]; reflexivity. Qed.
Lemma lift_ok {X Y} (a : X) (k : X -> W Y) : wbind (lift (Ok a)) k = k a.
Proof. unfold wbind, lift. cbn. destruct (k a). reflexivity. Qed.
Lemma line_w_eq prec es : line_w prec es = (line0_w prec es ;;; cut_newline).
Proof.
  unfold line_w, line0_w. rewrite wbind_assoc. apply wbind_ext. intros n. rewrite wbind_assoc. apply wbind_ext. intros nz.
  rewrite wbind_assoc. apply wbind_ext. intros _. rewrite wbind_assoc. apply wbind_ext. intros _. rewrite wbind_assoc. apply wbind_ext. intros _.
  rewrite wbind_assoc. apply wbind_ext. intros p. rewrite wbind_assoc. apply wbind_ext. intros pts. reflexivity.
Qed.

(** KPOINTS: the simulated text is the one before the newline is cut *)
Definition is_line (es : kentries) : bool :=
  match dget (lit "mode") es with Some (KStr m) => seqb m (lit "line") | _ => false end.
Definition kp_text (prec : nat) (es : kentries) : res str :=
  let* _ := KpointsModel.validate es in
  let* c := key es "comment" in
  let* cs := match c with
             | KNone => Ok (lit "# No comment")
             | KStr s => Ok (lit "# " ++ s)
             | _ => Exn TypeError
             end in
  let first := cs ++ [nl] in
  let* m := key es "mode" in
  match m with
  | KStr mode =>
      if seqb mode (lit "explicit") then let* b := write_explicit prec es in Ok (first ++ b)
      else if seqb mode (lit "automatic") then let* b := write_automatic prec es in Ok (first ++ b)
      else if seqb mode (lit "line") then let* b := write_line prec es in Ok (first ++ b)
      else Ok first
  | _ => Ok first
  end.
Lemma kp_text_write prec es : KpointsModel.write prec es = let* t := kp_text prec es in Ok (if is_line es then removelast t else t).
Proof.
  unfold KpointsModel.write, kp_text. destruct (KpointsModel.validate es); cbn [bind]; [|reflexivity].
  destruct (key es "comment") as [c|]; cbn [bind]; [|reflexivity].
  match goal with |- context [match c with KNone => ?a | _ => _ end] => idtac | _ => idtac end.
  set (cs := match c with KNone => Ok (lit "# No comment") | KStr s => Ok (lit "# " ++ s) | _ => Exn TypeError end).
  destruct cs as [t|]; cbn [bind]; [|reflexivity].
  unfold key, is_line, remove_newline. destruct (dget (lit "mode") es) as [m|]; cbn [of_option bind]; [|reflexivity].
  destruct m; try reflexivity.
  destruct (seqb s (lit "explicit")) eqn:E1.
  { apply seqb_eq in E1. subst s. destruct (write_explicit prec es); reflexivity. }
  destruct (seqb s (lit "automatic")) eqn:E2.
  { apply seqb_eq in E2. subst s. destruct (write_automatic prec es); reflexivity. }
  destruct (seqb s (lit "line")) eqn:E3; [destruct (write_line prec es); reflexivity|reflexivity].
Qed.
Definition kpoints0_w (prec : nat) (es : kentries) : W unit :=
  do* u := lift (KpointsModel.validate es) in
  do* c := lift (key es "comment") in
  do* cs := lift (match c with
                  | KNone => Ok (lit "# No comment")
                  | KStr s => Ok (lit "# " ++ s)
                  | _ => Exn TypeError
                  end) in
  put (cs ++ [nl]) ;;;
  do* m := lift (key es "mode") in
  match m with
  | KStr mode =>
      if seqb mode (lit "explicit") then explicit_w prec es
      else if seqb mode (lit "automatic") then automatic_w prec es
      else if seqb mode (lit "line") then line0_w prec es
      else wret tt
  | _ => wret tt
  end.
Lemma simp_kpoints0 prec es : simp [] (kpoints0_w prec es) (kp_text prec es).
Proof.
  unfold kpoints0_w, kp_text. apply simp_lift. intros u _. apply simp_lift. intros c _. apply simp_lift. intros cs _. apply simp_put.
  apply simp_lift. intros m _. cbn [app]. destruct m; try (apply simp_ret; reflexivity).
  destruct (seqb s (lit "explicit")); [apply simp_pre; apply simp_explicit|].
  destruct (seqb s (lit "automatic")); [apply simp_pre; apply simp_automatic|].
  destruct (seqb s (lit "line")); [apply simp_pre; apply simp_line0|apply simp_ret; reflexivity].
Qed.
Lemma kpoints_w_eq prec es : kpoints_w prec es = if is_line es then (kpoints0_w prec es ;;; cut_newline) else kpoints0_w prec es.
Proof.
  unfold kpoints_w, kpoints0_w, is_line.
  destruct (dget (lit "mode") es) as [m|] eqn:EM.
  2:{ assert (key es "mode" = Exn KeyError) as KM by (unfold key; rewrite EM; reflexivity). rewrite KM. reflexivity. }
  assert (key es "mode" = Ok m) as KM by (unfold key; rewrite EM; reflexivity).
  rewrite KM.
  destruct m; try reflexivity. destruct (seqb s (lit "line")) eqn:E3.
  - apply seqb_eq in E3. subst s. rewrite wbind_assoc. apply wbind_ext. intros u. rewrite wbind_assoc. apply wbind_ext. intros c.
    rewrite wbind_assoc. apply wbind_ext. intros cs. rewrite wbind_assoc. apply wbind_ext. intros _. rewrite wbind_assoc.
    rewrite !lift_ok. apply line_w_eq.
  - apply wbind_ext. intros u. apply wbind_ext. intros c. apply wbind_ext. intros cs. apply wbind_ext. intros _.
    rewrite !lift_ok, E3. reflexivity.
Qed.

(** POSCAR *)
Section Poscar.
Variable A : arith.
Lemma simp_position prec wd sel cell s : simp [] (position_w A prec wd sel cell s) (let* t := position_text A prec wd sel cell s in Ok (t ++ [nl])).
Proof.
  unfold position_w, position_text.
  apply (simp_ext _ _ (let* v := shown A wd cell (ws_position A s) in let* t := line3 A prec v in
     let* f := (if sel then flags_text (ws_selective A s) else Ok []) in Ok ((t ++ f) ++ [nl]))).
  { destruct (shown A wd cell (ws_position A s)) as [v0|]; cbn; [|reflexivity]. destruct (line3 A prec v0); cbn; [|reflexivity].
    destruct (if sel then _ else _); reflexivity. }
  apply simp_lift. intros v _. apply simp_lift. intros t _. apply simp_put. apply simp_seq.
  - destruct sel; [|apply simp_ret; reflexivity]. apply (simp_ext _ _ (let* f := flags_text (ws_selective A s) in Ok f)).
    + destruct (flags_text _); reflexivity.
    + apply simp_lift. intros f _. apply simp_last. reflexivity.
  - intros f _. apply simp_last. reflexivity.
Qed.
Lemma simp_poscar prec conserve wd es : simp [] (poscar_w A prec conserve wd es) (get_string A prec conserve wd es).
Proof.
  unfold poscar_w, get_string, write_lines.
  set (un := fun ls => concat (map (fun l : str => l ++ [nl]) ls)).
  assert (forall a b, un (a ++ b) = un a ++ un b) as UA by (intros; unfold un; rewrite map_app, concat_app; reflexivity).
  assert (forall (X : Type) (r : res X) (k : X -> res (list str)) , (let* ls := (let* x := r in k x) in Ok (un ls)) = let* x := r in let* ls := k x in Ok (un ls)) as BA.
  { intros X [x|e] k; reflexivity. }
  change (simp [] ?w (let* ls := ?r in Ok (concat _))) with (simp [] w (let* ls := r in Ok (un ls))).
  rewrite BA. apply simp_lift. intros u0 _. rewrite BA. apply simp_lift. intros co _. rewrite BA. apply simp_lift. intros u _.
  rewrite BA. apply simp_lift. intros cell _. rewrite BA. apply simp_lift. intros s _. rewrite BA. apply simp_lift. intros l _.
  rewrite BA. apply simp_lift. intros sites _. cbv zeta.
  set (selective := existsb (fun s => existsb negb (ws_selective A s)) sites).
  set (hasv := existsb (fun s => is_some (ws_velocities A s)) sites).
  set (hasp := existsb (fun s => is_some (ws_predictors A s)) sites).
  destruct (group_sites A conserve sites) as [out groups]. cbn [fst snd].
  rewrite BA. apply simp_lift. intros c _. apply simp_put. apply simp_put.
  eapply simp_ext; [|
    apply simp_seq; [apply simp_lines|intros rows _];
    apply simp_put; apply simp_put;
    apply simp_seq; [instantiate (1 := Ok (un (if selective then [lit "Selective dynamics"] else [])))|intros se _];
    [|apply simp_put;
    apply simp_seq; [apply (simp_each (fun s => let* t := position_text A prec wd selective cell s in Ok (t ++ [nl]))); apply simp_position|intros pos _];
    apply simp_seq; [instantiate (1 := let* vel := (if hasv then let* v := mapM (velocity_text A prec wd cell) out in Ok (label wd :: v) else Ok []) in Ok (un vel))|intros vel _];
    [|apply simp_pre; instantiate (1 := let* pre := (if hasp then let* v := mapM (predictor_text A prec) out in Ok ([] :: v) else Ok []) in Ok (un pre))]]].
  - rewrite mapM_each. destruct (mapM (line3 A prec) cell) as [rows|]; cbn [bind]; [|reflexivity].
    destruct (mapM (position_text A prec wd selective cell) out) as [pos|]; cbn [bind]; [|reflexivity].
    destruct (if hasv then _ else _) as [vel|]; cbn [bind]; [|reflexivity].
    destruct (if hasp then _ else _) as [pre|]; cbn [bind]; [|reflexivity].
    f_equal. rewrite !UA. change (concat (map _ rows)) with (un rows). change (concat (map _ pos)) with (un pos).
    unfold un at 6 8 10. cbn [map concat]. rewrite ?app_nil_r, <- ?app_assoc. reflexivity.
  - destruct selective; [apply simp_last; cbn; rewrite ?app_nil_r; reflexivity|apply simp_ret; reflexivity].
  - destruct hasv; [|apply simp_ret; reflexivity]. apply simp_put.
    eapply simp_ext; [|apply simp_pre; apply simp_lines]. destruct (mapM _ out); cbn [bind]; [|reflexivity]. reflexivity.
  - destruct hasp; [|apply simp_ret; reflexivity]. apply simp_put.
    eapply simp_ext; [|apply simp_pre; apply simp_lines]. destruct (mapM _ out); cbn [bind]; [|reflexivity]. reflexivity.
Qed.
End Poscar.

(** ** File objects *)
Lemma write_open t f f' : f_write t f = Ok f' -> f_open f = true /\ f_open f' = true.
Proof. unfold f_write. destruct (f_open f) eqn:O; [|discriminate]. intros H. split; auto. destruct t; inversion H; subst; auto. Qed.
Definition wrote (t : str) (f : fobj) : fobj :=
  match t with
  | [] => f
  | _ => FObj (firstn (f_pos f) (f_text f) ++ repeat nul (f_pos f - length (f_text f)) ++ t ++ skipn (f_pos f + length t) (f_text f))
              (f_pos f + length t) true
  end.
Lemma f_write_open t f : f_open f = true -> f_write t f = Ok (wrote t f).
Proof. intros O. unfold f_write, wrote. rewrite O. destruct t; reflexivity. Qed.
Lemma wrote_open t f : f_open f = true -> f_open (wrote t f) = true.
Proof. destruct t; auto. Qed.
Lemma skipn_skipn' {X} (l : list X) : forall y x, skipn x (skipn y l) = skipn (x + y) l.
Proof.
  induction l as [|a l IH]; intros y x; [rewrite !skipn_nil; reflexivity|]. destruct y; cbn [skipn]; [rewrite Nat.add_0_r; reflexivity|].
  rewrite IH. replace (x + S y) with (S (x + y)) by lia. reflexivity.
Qed.
Lemma wrote_wrote a b f : wrote b (wrote a f) = wrote (a ++ b) f.
Proof.
  destruct a as [|x a]; [reflexivity|]. destruct b as [|y b]; [rewrite app_nil_r; reflexivity|].
  set (a' := x :: a). set (b' := y :: b).
  assert (length a' = S (length a)) as La by reflexivity.
  change (wrote b' (wrote a' f)) with
    (let g := FObj (firstn (f_pos f) (f_text f) ++ repeat nul (f_pos f - length (f_text f)) ++ a' ++ skipn (f_pos f + length a') (f_text f)) (f_pos f + length a') true in
     FObj (firstn (f_pos g) (f_text g) ++ repeat nul (f_pos g - length (f_text g)) ++ b' ++ skipn (f_pos g + length b') (f_text g)) (f_pos g + length b') true).
  change (wrote (a' ++ b') f) with
    (FObj (firstn (f_pos f) (f_text f) ++ repeat nul (f_pos f - length (f_text f)) ++ (a' ++ b') ++ skipn (f_pos f + length (a' ++ b')) (f_text f)) (f_pos f + length (a' ++ b')) true).
  cbv zeta. cbn [f_text f_pos]. generalize dependent (f_text f). generalize (f_pos f). intros p t. clearbody a' b'.
  set (pre := firstn p t ++ repeat nul (p - length t)).
  assert (length pre = p) as LP. { unfold pre. rewrite app_length, firstn_length, repeat_length. lia. }
  assert (firstn p t ++ repeat nul (p - length t) ++ a' ++ skipn (p + length a') t = (pre ++ a') ++ skipn (p + length a') t) as E1 by (unfold pre; rewrite <- !app_assoc; reflexivity).
  rewrite E1. assert (length (pre ++ a') = p + length a') as L2 by (rewrite app_length; lia).
  f_equal.
  - rewrite <- L2 at 1. rewrite firstn_app, Nat.sub_diag, firstn_all, firstn_O, app_nil_r.
    replace (p + length a' - length ((pre ++ a') ++ skipn (p + length a') t)) with 0 by (rewrite app_length; lia). cbn [repeat app].
    rewrite skipn_app, skipn_all2 by lia. rewrite L2. replace (p + length a' + length b' - (p + length a')) with (length b') by lia. cbn [app].
    rewrite skipn_skipn', app_length. replace (length b' + (p + length a')) with (p + (length a' + length b')) by lia.
    unfold pre. rewrite <- !app_assoc. reflexivity.
  - rewrite app_length. lia.
Qed.
Lemma do_ops_puts : forall l f, f_open f = true -> nocut l -> do_ops l f = (wrote (puts l) f, Ok tt).
Proof.
  induction l as [|o l IH]; intros f O N; [reflexivity|]. inversion N as [|? ? No Nl]. subst.
  destruct o as [t|]; [|congruence]. cbn [do_ops do_op]. rewrite f_write_open by auto. rewrite IH by (auto using wrote_open).
  rewrite puts_put, wrote_wrote. reflexivity.
Qed.
Lemma do_ops_app : forall l1 l2 f f', do_ops l1 f = (f', Ok tt) -> do_ops (l1 ++ l2) f = do_ops l2 f'.
Proof.
  induction l1 as [|o l1 IH]; intros l2 f f' H; cbn in *; [inversion H; subst; auto|]. destruct (do_op o f); [|discriminate]. auto.
Qed.
(** at the end of an open file *)
Definition at_end (f : fobj) : Prop := f_open f = true /\ f_pos f = length (f_text f).
Lemma wrote_end t f : at_end f -> wrote t f = FObj (f_text f ++ t) (length (f_text f ++ t)) true.
Proof.
  intros [O E]. destruct f as [x p o]. cbn in *. subst. destruct t as [|c t].
  - cbn. rewrite app_nil_r. reflexivity.
  - unfold wrote. cbn [f_text f_pos]. rewrite firstn_all, Nat.sub_diag, skipn_all2 by lia. cbn [repeat app]. rewrite app_nil_r, app_length. reflexivity.
Qed.
Lemma end_opened : at_end (opened []).
Proof. split; reflexivity. Qed.

(** a writer that simulates a text, on an open file *)
Lemma run_simp w r f : simp [] w r -> f_open f = true -> run_on w f = (wrote (puts (fst w)) f, outcome r).
Proof. intros [H1 H2 H3] O. unfold run_on. rewrite do_ops_puts by auto. rewrite H1. reflexivity. Qed.
Lemma run_simp_ok w t f : simp [] w (Ok t) -> f_open f = true -> run_on w f = (wrote t f, Ok tt).
Proof. intros H O. rewrite (run_simp _ _ _ H O). rewrite <- (simp_text _ _ _ H t eq_refl). reflexivity. Qed.

(** KPOINTS, all modes *)
Lemma kp_text_nonempty prec es t : kp_text prec es = Ok t -> t <> [].
Proof.
  unfold kp_text. intros H. apply bind_ok in H as [u [_ H]]. apply bind_ok in H as [c [_ H]]. apply bind_ok in H as [cs [_ H]].
  apply bind_ok in H as [m [_ H]]. assert (forall a : str, (cs ++ [nl]) ++ a <> []) as N by (intros a; destruct cs; discriminate).
  destruct m; try (apply Ok_inj in H; subst t; destruct cs; discriminate).
  destruct (seqb s (lit "explicit")). { apply bind_ok in H as [b [_ H]]. apply Ok_inj in H. subst t. auto. }
  destruct (seqb s (lit "automatic")). { apply bind_ok in H as [b [_ H]]. apply Ok_inj in H. subst t. auto. }
  destruct (seqb s (lit "line")). { apply bind_ok in H as [b [_ H]]. apply Ok_inj in H. subst t. auto. }
  apply Ok_inj in H. subst t. destruct cs; discriminate.
Qed.

Definition ends_nl (t : str) : Prop := exists u, t = u ++ [nl].
Lemma ends_nl_app a b : ends_nl b -> ends_nl (a ++ b).
Proof. intros [u ->]. exists (a ++ u). rewrite app_assoc. reflexivity. Qed.
Lemma pair_lines_ends : forall ls second, Forall ends_nl ls -> ls <> [] -> ends_nl (pair_lines second ls).
Proof.
  induction ls as [|l ls IH]; intros second F N; [congruence|]. inversion F as [|? ? Fl Fls]. subst. cbn [pair_lines].
  destruct ls as [|l2 ls]. { cbn [pair_lines]. rewrite app_nil_r. destruct second; [exists l; reflexivity|rewrite app_nil_r; auto]. }
  apply ends_nl_app, ends_nl_app, IH; [auto|discriminate].
Qed.
Lemma write_line_point_ends prec v t : write_line_point prec v = Ok t -> ends_nl t.
Proof.
  unfold write_line_point. destruct v; try discriminate. intros H. apply bind_ok in H as [x0 [_ H]]. apply bind_ok in H as [x1 [_ H]]. apply bind_ok in H as [x2 [_ H]].
  apply Ok_inj in H. subst t. repeat apply ends_nl_app. exists []. reflexivity.
Qed.
Lemma write_line_ends prec es t : write_line prec es = Ok t -> ends_nl t.
Proof.
  unfold write_line. intros H. apply bind_ok in H as [n [_ H]]. apply bind_ok in H as [nz [_ H]]. apply bind_ok in H as [p [_ H]]. apply bind_ok in H as [pts [_ H]].
  apply bind_ok in H as [ls [M H]]. apply Ok_inj in H. subst t. do 5 apply ends_nl_app.
  destruct ls as [|l ls]; [cbn [pair_lines]; rewrite app_nil_r; exists []; reflexivity|].
  apply ends_nl_app. apply pair_lines_ends; [|discriminate]. apply mapM_ok_Forall2 in M. clear -M.
  induction M; constructor; auto. eapply write_line_point_ends; eauto.
Qed.
Lemma kp_text_line prec es t : is_line es = true -> kp_text prec es = Ok t -> t = removelast t ++ [nl].
Proof.
  intros L H. assert (ends_nl t) as [u ->]; [|rewrite removelast_last; reflexivity].
  unfold is_line in L. unfold kp_text in H. apply bind_ok in H as [u [_ H]]. apply bind_ok in H as [c [_ H]]. apply bind_ok in H as [cs [_ H]].
  apply bind_ok in H as [m [K H]]. unfold key in K. destruct (dget (lit "mode") es) as [v|]; [|discriminate]. apply Ok_inj in K. subst v.
  destruct m; try discriminate. apply seqb_eq in L. subst s.
  apply bind_ok in H as [b [Hb H]]. apply Ok_inj in H. subst t. rewrite <- app_assoc. apply ends_nl_app, (ends_nl_app [nl]). eapply write_line_ends; eauto.
Qed.

(** what _write emits before the newline is cut, in every mode *)
Lemma kp_ops prec es t : kp_text prec es = Ok t ->
  exists ops, nocut ops /\ puts ops = t /\ kpoints_w prec es = (ops ++ (if is_line es then [Cut] else []), Ok tt).
Proof.
  intros H. destruct (simp_kpoints0 prec es) as [S1 S2 S3]. exists (fst (kpoints0_w prec es)). split; auto. split; [apply (S3 t H)|].
  rewrite H in S1. cbn in S1. rewrite kpoints_w_eq. destruct (kpoints0_w prec es) as [o r]. cbn in *. subst r.
  destruct (is_line es); [reflexivity|rewrite app_nil_r; reflexivity].
Qed.
Lemma kp_fails prec es e : kp_text prec es = Exn e ->
  exists ops, nocut ops /\ kpoints_w prec es = (ops, Exn e).
Proof.
  intros H. destruct (simp_kpoints0 prec es) as [S1 S2 S3]. exists (fst (kpoints0_w prec es)). split; auto.
  rewrite H in S1. cbn in S1. rewrite kpoints_w_eq. destruct (kpoints0_w prec es) as [o r]. cbn in *. subst r. destruct (is_line es); reflexivity.
Qed.
Lemma run_kpoints prec es t f : kp_text prec es = Ok t -> at_end f ->
  run_on (kpoints_w prec es) f =
    (FObj (f_text f ++ (if is_line es then removelast t else t)) (length (f_text f ++ t)) true, Ok tt).
Proof.
  intros H E. destruct (kp_ops prec es t H) as (ops & N & P & ->). unfold run_on. cbn [fst snd].
  rewrite (do_ops_app ops _ f (wrote t f)). 2:{ rewrite do_ops_puts; [rewrite P; reflexivity|apply E|auto]. }
  rewrite (wrote_end _ _ E). destruct (is_line es) eqn:L; [|reflexivity].
  pose proof (kp_text_line prec es t L H) as T. remember (removelast t) as u eqn:U. clear U H P. subst t.
  cbn [do_ops do_op]. unfold f_cut. cbn [f_pos]. rewrite !app_length. cbn [length].
  replace (length (f_text f) + (length u + 1)) with (S (length (f_text f ++ u))) by (rewrite app_length; lia).
  unfold f_truncate. cbn [f_open f_text f_pos]. rewrite app_assoc, firstn_app, firstn_all, Nat.sub_diag, firstn_O, app_nil_r. reflexivity.
Qed.
