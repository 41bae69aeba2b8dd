(** The ionic steps in the regular parser. *)
From Coq Require Import Ascii String List NArith ZArith Bool Lia.
From Verif Require Import PyBase PyStrLemmas PyNum UtilsModel LineModel OutcarModel DoscarProofs StreamConfig ChgcarModel ChgcarSpec ChgcarProofs VasprunTypes VasprunXml VasprunModel VasprunSpec VasprunTables VasprunTree.
Import ListNotations.
Local Open Scope list_scope.

Lemma children_at_app path a b : children_at path (a ++ b) = children_at path a ++ children_at path b.
Proof. revert a b. induction path as [|s r IH]; intros a b; cbn [children_at]; auto. rewrite flat_map_app, filter_app. apply IH. Qed.
Lemma children_at_flat path es : children_at path es = flat_map (fun e => children_at path [e]) es.
Proof.
  induction es as [|e es IH].
  - cbn. induction path; auto.
  - change (e :: es) with ([e] ++ es). rewrite children_at_app, IH. auto.
Qed.
Lemma findall_deep_flat s r x : findall_deep (s :: r) x = flat_map (fun c => findall_child r c) (findall_deep [s] x).
Proof. unfold findall_deep, findall_child. cbn [children_at]. apply children_at_flat. Qed.
Lemma children_at_trans p q es : children_at (p ++ q) es = children_at q (children_at p es).
Proof. revert es. induction p as [|s p IH]; intros es; cbn [app children_at]; auto. Qed.

(** entries that are [w] rows for each of the steps [ms] *)
Definition entries_hold (w : nat) (es : list xml) (ms : list matrix) : Prop :=
  exists parts, es = concat parts /\ Forall2 (fun part m => Forall2 holds part m /\ shape2 m w 3) parts ms.
Lemma entries_flat w (f : xml -> list xml) cs ms : Forall2 (fun c m => Forall2 holds (f c) m /\ shape2 m w 3) cs ms -> entries_hold w (flat_map f cs) ms.
Proof. intros F. exists (map f cs). split; [apply flat_map_concat_map|]. induction F; constructor; auto. Qed.
Lemma entries_length w es ms : entries_hold w es ms -> length es = length ms * w.
Proof. intros (parts & -> & F). induction F as [|p m ps ms [H [L _]] F IH]; auto. cbn [concat length]. rewrite app_length, IH, (F2_len H), L. lia. Qed.
Lemma skipn_concat {A} w (parts : list (list A)) k : (forall p, In p parts -> length p = w) -> skipn (k * w) (concat parts) = concat (skipn k parts).
Proof.
  revert parts. induction k as [|k IH]; intros parts L; auto. destruct parts as [|p parts]; [cbn; destruct (w + k * w); auto|]. cbn [Nat.mul concat skipn].
  assert (length p = w) as Lp by (apply L; left; auto). rewrite skipn_app, Lp. rewrite skipn_all2 by (rewrite Lp; apply Nat.le_add_r). cbn [app]. replace (w + k * w - w) with (k * w) by (generalize (k * w); lia). apply IH. intros q Q. apply L. right. auto.
Qed.
Lemma entries_slice w es ms k m : entries_hold w es ms -> nth_error ms k = Some m -> convert2D 3 (firstn w (skipn (k * w) es)) = Ok m.
Proof.
  intros (parts & -> & F) K. rewrite skipn_concat.
  - destruct (nth_error parts k) as [p|] eqn:P; [|apply nth_error_None in P; rewrite (F2_len F) in P; apply nth_error_Some_lt in K; exfalso; exact (Nat.lt_irrefl _ (Nat.lt_le_trans _ _ _ K P))].
    destruct (Forall2_nth _ _ _ _ _ F P) as (m' & M & H & Sh). rewrite K in M. injection M as <-.
    assert (skipn k parts = p :: skipn (S k) parts) as ->. { clear -P. revert k P. induction parts as [|a parts IH]; intros [|k] P; try discriminate; cbn in *; [injection P as ->; auto|apply IH; auto]. }
    cbn [concat]. rewrite firstn_app. destruct Sh as [L R]. rewrite (F2_len H), L, Nat.sub_diag. cbn [firstn]. rewrite app_nil_r. rewrite firstn_all2 by (rewrite (F2_len H); lia). apply convert2D_holds; auto.
  - intros p P. apply In_nth_error in P as [i P]. destruct (Forall2_nth _ _ _ _ _ F P) as (m' & _ & H & [L _]). rewrite (F2_len H). auto.
Qed.
Lemma entries_first w es ms m : entries_hold w es (m :: ms) -> convert2D 3 (firstn w es) = Ok m.
Proof. intros E. apply (entries_slice w es (m :: ms) 0); auto. Qed.
Lemma entries_last w es ms m : 0 < w -> entries_hold w es (ms ++ [m]) -> convert2D 3 (lastn w es) = Ok m.
Proof.
  intros W E. pose proof (entries_length _ _ _ E) as L. rewrite app_length in L. cbn [length] in L. unfold lastn. destruct w as [|w]; [lia|]. rewrite L.
  replace ((length ms + 1) * S w - S w) with (length ms * S w) by lia. rewrite <- (entries_slice _ _ _ (length ms) m E) by (rewrite nth_error_app2, Nat.sub_diag by lia; auto).
  f_equal. symmetry. apply firstn_all2. rewrite skipn_length, L. lia.
Qed.

(** dictionaries *)
Definition numbered {A} (l : list A) : ndict (option A) := combine (seq 1 (length l)) (map Some l).
Lemma combine_app {A B} (a a' : list A) (b b' : list B) : length a = length b -> combine (a ++ a') (b ++ b') = combine a b ++ combine a' b'.
Proof. revert b. induction a as [|x a IH]; intros [|y b] L; try discriminate; auto. cbn. f_equal. apply IH. auto. Qed.
Lemma numbered_snoc {A} (l : list A) x : numbered (l ++ [x]) = numbered l ++ [(S (length l), Some x)].
Proof. unfold numbered. rewrite app_length, map_app. cbn [length]. rewrite seq_app. rewrite combine_app by (rewrite seq_length, map_length; auto). auto. Qed.
Lemma numbered_keys {A} (l : list A) : map fst (numbered l) = seq 1 (length l).
Proof. induction l as [|x l IH] using rev_ind; auto. rewrite numbered_snoc, map_app, IH, app_length. cbn [length map fst]. rewrite seq_app. auto. Qed.
Lemma ndset_new {A} k (v : A) d : ~ In k (map fst d) -> ndset k v d = d ++ [(k, v)].
Proof.
  intros N. unfold ndset. destruct (existsb _ d) eqn:E; auto. exfalso. apply existsb_exists in E as [[k' v'] [I E]]. apply Nat.eqb_eq in E. apply N. apply in_map_iff. exists (k', v'). split; auto.
Qed.
Lemma ndget_app {A} k (d d' : ndict A) : ~ In k (map fst d) -> ndget k (d ++ d') = ndget k d'.
Proof. induction d as [|[k' v] d IH]; intros N; auto. cbn in *. destruct (Nat.eqb_spec k' k); [exfalso; apply N; left; auto|apply IH; intros I; apply N; right; auto]. Qed.
Lemma ndget_numbered {A} (l : list A) i x : nth_error l i = Some x -> ndget (S i) (numbered l) = Some (Some x).
Proof.
  induction l as [|y l IH] using rev_ind; [destruct i; discriminate|]. intros N. rewrite numbered_snoc.
  destruct (Nat.eq_dec i (length l)) as [->|D].
  - rewrite nth_error_app2, Nat.sub_diag in N by lia. injection N as ->. rewrite ndget_app by (rewrite numbered_keys, in_seq; lia). cbn. rewrite Nat.eqb_refl. auto.
  - rewrite nth_error_app1 in N by (apply nth_error_Some_lt in N; rewrite app_length in N; cbn in N; lia). specialize (IH N). clear -IH. induction (numbered l) as [|[k v] d IHd]; [discriminate|]. cbn in *. destruct (Nat.eqb k (S i)); auto.
Qed.
Lemma max_numbered {A} (l : list A) : l <> [] -> max_key (numbered l) = Some (length l).
Proof.
  intros N. unfold max_key. rewrite numbered_keys. destruct l as [|x l]; [congruence|]. cbn [length seq]. f_equal. clear.
  assert (forall n a b, a <= b -> fold_right Nat.max a (seq b n) = match n with 0 => a | _ => b + n - 1 end) as H.
  { induction n as [|n IH]; intros a b L; auto. cbn [seq fold_right]. rewrite IH by lia. destruct n; lia. }
  rewrite H by lia. destruct (length l); lia.
Qed.

(** one quantity *)
Definition quantity (loop : bool) (w n : nat) (es : option (list xml)) : res (ndict (option matrix)) :=
  let* d := first_last w es in
  if loop then foldM (fun d calc => set_step calc w es d) (seq 1 (n - 1)) d else Ok d.
Lemma first_last_ok w es ms pre m m0 : 0 < w -> entries_hold w es ms -> ms = pre ++ [m] -> hd_error ms = Some m0 ->
  first_last w (Some es) = Ok [(1, Some m0); (2, if Nat.ltb 3 (length es) then Some m else None)].
Proof.
  intros W E LA H0. unfold first_last. destruct ms as [|m1 ms]; [discriminate|]. injection H0 as ->. rewrite (entries_first _ _ _ _ E). cbn [bind]. destruct (Nat.ltb 3 (length es)); auto.
  cbn [opt_map_res]. rewrite LA in E. rewrite (entries_last _ _ _ _ W E). auto.
Qed.
Lemma loop_from w es ms k d : entries_hold w es ms -> 2 <= k -> k <= length ms -> d = numbered (firstn k ms) ->
  foldM (fun d calc => set_step calc w (Some es) d) (seq k (length ms - k)) d = Ok (numbered ms).
Proof.
  intros E K2 K ->. remember (length ms - k) as r eqn:R. revert k K2 K R. induction r as [|r IH]; intros k K2 K R; cbn [seq foldM].
  - rewrite firstn_all2 by lia. auto.
  - destruct (nth_error ms k) as [m|] eqn:N; [|apply nth_error_None in N; lia]. unfold set_step at 1. unfold slice. rewrite (entries_slice _ _ _ _ _ E N). cbn [bind].
    rewrite ndset_new by (rewrite numbered_keys, in_seq, firstn_length; lia).
    assert (numbered (firstn k ms) ++ [(S k, Some m)] = numbered (firstn (S k) ms)) as ->.
    { assert (firstn (S k) ms = firstn k ms ++ [m]) as ->. { clear -N. revert k N. induction ms as [|a ms IH]; intros [|k] N; try discriminate; cbn in *; [congruence|f_equal; apply IH; auto]. }
      rewrite numbered_snoc, firstn_length. rewrite Nat.min_l by lia. auto. }
    apply IH; lia.
Qed.
(** key 2 exists already, with some value *)
Lemma quantity_loop w es ms : 0 < w -> entries_hold w es ms -> 2 <= length ms -> quantity true w (length ms) (Some es) = Ok (numbered ms).
Proof.
  intros W E L. unfold quantity. destruct ms as [|m1 [|m2 ms]]; cbn in L; try lia.
  destruct (exists_last (l := m1 :: m2 :: ms)) as (pre & z & P); [discriminate|].
  rewrite (first_last_ok w es _ pre z m1 W E P) by auto.
  cbn [bind length Nat.sub seq foldM]. unfold set_step at 1. unfold slice. rewrite (entries_slice w es _ 1 m2 E) by auto. cbn [bind].
  replace (length ms) with (length (m1 :: m2 :: ms) - 2) by (cbn; lia). apply loop_from; auto; cbn; lia.
Qed.
Lemma quantity_one w es m (loop : bool) : 0 < w -> entries_hold w es [m] -> exists d, quantity loop w 1 (Some es) = Ok d /\ same_last d = [(1, Some m); (2, Some m)].
Proof.
  intros W E. unfold quantity. rewrite (first_last_ok w es [m] [] m m W E) by auto. cbn [bind Nat.sub seq foldM]. destruct loop; (eexists; split; [reflexivity|]); destruct (Nat.ltb 3 (length es)); auto.
Qed.
(** what the dict of one quantity is *)
Definition step_dict (w : nat) (l : list matrix) : ndict (option matrix) :=
  match l with
  | [m] => [(1, Some m); (2, Some m)]
  | [m1; m2] => if Nat.eqb w 1 then [(1, Some m1); (2, Some m1)] else numbered l
  | _ => numbered l
  end.
Lemma same_last_numbered (l : list matrix) : 2 <= length l -> same_last (numbered l) = numbered l.
Proof. intros L. destruct l as [|m1 [|m2 l]]; cbn in L; try lia. unfold same_last. rewrite (ndget_numbered (m1 :: m2 :: l) 1 m2); auto. Qed.
Lemma quantity_ok w es ms (loop : bool) : 0 < w -> entries_hold w es ms -> ms <> [] -> (2 < length ms -> loop = true) -> (length ms = 2 -> w = 1 -> loop = false) ->
  exists d, quantity loop w (length ms) (Some es) = Ok d /\ same_last d = step_dict w ms.
Proof.
  intros W E NE L3 L2. destruct ms as [|m1 [|m2 [|m3 ms]]]; [congruence|apply quantity_one; auto| |].
  - unfold step_dict. destruct (Nat.eqb_spec w 1) as [->|D].
    + rewrite L2 by auto. unfold quantity. rewrite (first_last_ok 1 es [m1; m2] [m1] m2 m1 W E) by auto. cbn [bind]. rewrite (entries_length _ _ _ E). cbn. eexists. split; [reflexivity|]. auto.
    + destruct loop.
      * rewrite (quantity_loop w es [m1; m2] W E) by auto. eexists. split; [reflexivity|]. apply same_last_numbered. auto.
      * unfold quantity. rewrite (first_last_ok w es [m1; m2] [m1] m2 m1 W E) by auto. cbn [bind]. rewrite (entries_length _ _ _ E). destruct (Nat.ltb_spec 3 (length [m1; m2] * w)) as [T|T]; [|cbn [length] in T; lia].
        eexists. split; [reflexivity|]. auto.
  - rewrite L3 by (cbn; lia). rewrite (quantity_loop w es _ W E) by (cbn; lia). eexists. split; [reflexivity|]. apply same_last_numbered. cbn. lia.
Qed.
Definition upd (ec ep ef es : option (list xml)) (na : nat) (d : upfs) (calc : nat) : res upfs :=
  let '(c, p, f, s) := d in
  let* c := set_step calc 3 ec c in let* p := set_step calc na ep p in
  let* f := set_step calc na ef f in let* s := set_step calc 3 es s in Ok (c, p, f, s).
Lemma fold_upd ec ep ef es na l c p f s c' p' f' s' :
  foldM (fun d calc => set_step calc 3 ec d) l c = Ok c' -> foldM (fun d calc => set_step calc na ep d) l p = Ok p' ->
  foldM (fun d calc => set_step calc na ef d) l f = Ok f' -> foldM (fun d calc => set_step calc 3 es d) l s = Ok s' ->
  foldM (upd ec ep ef es na) l (c, p, f, s) = Ok (c', p', f', s').
Proof.
  revert c p f s. induction l as [|k l IH]; intros c p f s C P F S; cbn [foldM] in *; [apply Ok_inj' in C, P, F, S; subst; auto|].
  apply bind_ok in C as [c1 [C1 C]]. apply bind_ok in P as [p1 [P1 P]]. apply bind_ok in F as [f1 [F1 F]]. apply bind_ok in S as [s1 [S1 S]].
  unfold upd at 1. rewrite C1. cbn [bind]. rewrite P1. cbn [bind]. rewrite F1. cbn [bind]. rewrite S1. cbn [bind]. apply IH; auto.
Qed.
Lemma some_list_some {A} (l : list A) : l <> [] -> some_list l = Some l. Proof. destruct l; [congruence|auto]. Qed.
Lemma Forall2_map_r {A B C} (R : A -> C -> Prop) (f : B -> C) l r : Forall2 (fun a b => R a (f b)) l r -> Forall2 R l (map f r).
Proof. induction 1; constructor; auto. Qed.
Lemma Forall2_impl {A B} (R R' : A -> B -> Prop) l r : (forall a b, R a b -> R' a b) -> Forall2 R l r -> Forall2 R' l r.
Proof. intros H. induction 1; constructor; auto. Qed.
Lemma findall_calc r x : findall (Tag "calculation" :: r) x = some_list (flat_map (findall_child r) (calculations x)).
Proof. unfold findall. rewrite findall_deep_flat. auto. Qed.
Lemma fetch_upfs_ok x sp na steps : length sp = na -> 0 < na -> steps <> [] -> Forall2 (step_holds na) (calculations x) steps ->
  fetch_upfs x (Some sp) true = Ok (Some (step_dict 3 (map st_cell steps), step_dict na (map st_pos steps), step_dict na (map st_force steps), step_dict 3 (map st_stress steps))).
Proof.
  intros LS NA NE F. unfold fetch_upfs. rewrite LS. cbv zeta. cbn [negb].
  assert (length (flat_map (findall_child [Tag "structure"]) (calculations x)) = length steps) as LST.
  { clear -F. induction F as [|c s cs ss (H & _) F IH]; auto. cbn [flat_map length]. rewrite app_length, H, IH. auto. }
  assert (entries_hold 3 (flat_map (findall_child basis_path) (calculations x)) (map st_cell steps)) as EC by (apply entries_flat, Forall2_map_r; eapply Forall2_impl; [|exact F]; unfold step_holds, rows_hold; tauto).
  assert (entries_hold na (flat_map (findall_child positions_path) (calculations x)) (map st_pos steps)) as EP by (apply entries_flat, Forall2_map_r; eapply Forall2_impl; [|exact F]; unfold step_holds, rows_hold; tauto).
  assert (entries_hold na (flat_map (findall_child (varray_path "forces")) (calculations x)) (map st_force steps)) as EF by (apply entries_flat, Forall2_map_r; eapply Forall2_impl; [|exact F]; unfold step_holds, rows_hold; tauto).
  assert (entries_hold 3 (flat_map (findall_child (varray_path "stress")) (calculations x)) (map st_stress steps)) as ES by (apply entries_flat, Forall2_map_r; eapply Forall2_impl; [|exact F]; unfold step_holds, rows_hold; tauto).
  rewrite !findall_calc. change [Tag "structure"; Tag "crystal"; vrr "basis"; Tag "v"] with basis_path. change [Tag "structure"; vrr "positions"; Tag "v"] with positions_path.
  change [vrr "forces"; Tag "v"] with (varray_path "forces"). change [vrr "stress"; Tag "v"] with (varray_path "stress").
  set (st := flat_map (findall_child [Tag "structure"]) (calculations x)) in *. set (ec := flat_map (findall_child basis_path) (calculations x)) in *.
  set (ep := flat_map (findall_child positions_path) (calculations x)) in *. set (ef := flat_map (findall_child (varray_path "forces")) (calculations x)) in *. set (es := flat_map (findall_child (varray_path "stress")) (calculations x)) in *.
  assert (0 < length steps) as NS by (destruct steps; [congruence|cbn; lia]).
  pose proof (entries_length _ _ _ EC) as LC. pose proof (entries_length _ _ _ EP) as LP. pose proof (entries_length _ _ _ EF) as LF. pose proof (entries_length _ _ _ ES) as LSS. rewrite map_length in *.
  assert (forall l : list xml, 0 < length l -> some_list l = Some l) as SL by (intros l; destruct l; [cbn; lia|auto]).
  rewrite (SL st), (SL ec), (SL ep), (SL ef), (SL es) by nia. cbn [count].
  set (loop := Nat.ltb 6 (Nat.max (length es) (Nat.max (length ef) (Nat.max (length ec) (length ep))))).
  assert (2 < length steps -> loop = true) as L3 by (intros L; unfold loop; apply Nat.ltb_lt; lia).
  assert (length steps = 2 -> na = 1 -> loop = false) as L2 by (intros L ->; unfold loop; apply Nat.ltb_ge; lia).
  assert (forall g : ion_step -> matrix, map g steps <> []) as NM by (intros g; destruct steps; [congruence|discriminate]).
  assert (length steps = 2 -> 3 = 1 -> loop = false) as L23 by (intros; discriminate).
  destruct (quantity_ok 3 ec (map st_cell steps) loop ltac:(lia) EC (NM _) ltac:(rewrite map_length; auto) ltac:(rewrite map_length; auto)) as (c & C & C').
  destruct (quantity_ok na ep (map st_pos steps) loop NA EP (NM _) ltac:(rewrite map_length; auto) ltac:(rewrite map_length; auto)) as (p & P & P').
  destruct (quantity_ok na ef (map st_force steps) loop NA EF (NM _) ltac:(rewrite map_length; auto) ltac:(rewrite map_length; auto)) as (f & Fo & F').
  destruct (quantity_ok 3 es (map st_stress steps) loop ltac:(lia) ES (NM _) ltac:(rewrite map_length; auto) ltac:(rewrite map_length; auto)) as (s & S & S').
  rewrite map_length in *. unfold quantity in C, P, Fo, S. apply bind_ok in C as [c0 [C0 C]]. apply bind_ok in P as [p0 [P0 P]]. apply bind_ok in Fo as [f0 [F0 Fo]]. apply bind_ok in S as [s0 [S0 S]].
  rewrite C0. cbn [bind]. rewrite P0. cbn [bind]. rewrite F0. cbn [bind]. rewrite S0. cbn [bind]. rewrite LST.
  assert ((if loop then foldM (upd (Some ec) (Some ep) (Some ef) (Some es) na) (seq 1 (length steps - 1)) (c0, p0, f0, s0) else Ok (c0, p0, f0, s0)) = Ok (c, p, f, s)) as K.
  { destruct loop; [apply fold_upd; auto|]. apply Ok_inj' in C, P, Fo, S. subst. auto. }
  unfold upd in K. rewrite K. cbn [bind]. rewrite C', P', F', S'. auto.
Qed.
