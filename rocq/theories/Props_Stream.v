(** Properties of the standard stream parser (C41-C45, C61): statements, with
    non-vacuity examples.  They hold for every regular expression engine. *)
From Coq Require Import Ascii String List NArith ZArith Bool Lia Arith Permutation.
From Verif Require Import PyBase PyStrLemmas UtilsModel StreamModel StreamProofs StreamConfig.
Import ListNotations.
Local Open Scope list_scope.
Local Open Scope bool_scope.
Local Open Scope nat_scope.

(** the lines scanned: a handler is preferred to a path *)
Definition scanned (path : source_path) (handler : source_handler) : list str :=
  match handler with
  | Some txt => readlines txt
  | None => match path with Some (Some txt) => readlines (translate_newlines txt) | _ => [] end
  end.
(** the entry in force under a name: the user's if there is one *)
Definition effective {R} (config : option (sconfig R)) (n : str) : option (dict (sval R)) :=
  match match config with Some c => dget n c | None => None end with
  | Some e => Some e
  | None => dget n (default_config R)
  end.
(** Python dictionaries have no repeated keys *)
Definition a_dict {R} (config : option (sconfig R)) : Prop := match config with Some c => NoDup (dkeys c) | None => True end.
Definition default {V} (o : option V) (d : V) : V := match o with Some v => v | None => d end.
(** [t] is the trigger described by the entry [e] named [n] *)
Definition trigger_of (R : Type) (compile : str -> option R) (n : str) (e : dict (sval R)) (t : vstream R) : Prop :=
  vs_short R t = n /\ dget (lit "kind") e = Some (SStr R (vs_kind R t)) /\ dget (lit "message") e = Some (SStr R (vs_message R t)) /\
  (exists v, dget (lit "regex") e = Some v /\ match v with SStr _ s => exists r, compile s = Some r /\ vs_regex R t = SRegex R r | _ => vs_regex R t = v end) /\
  default (dget (lit "suggestion") e) (SNone R) = (match vs_suggestion R t with Some s => SStr R s | None => SNone R end) /\
  default (dget (lit "location") e) (SStr R (lit "STDOUT")) = SStr R (vs_location R t) /\
  default (dget (lit "recover") e) (SBool R false) = SBool R (vs_recover R t) /\
  default (dget (lit "inverse") e) (SBool R false) = SBool R (vs_inverse R t).
(** kinds that are watched *)
Definition watched {R} (e : dict (sval R)) : Prop :=
  exists k, dget (lit "kind") e = Some (SStr R k) /\ (upper k = lit "ERROR" \/ upper k = lit "WARNING").

(** ** What constructing an object does *)
Lemma trigger_of_ok R compile n e t : vasp_stream R compile n e = Ok t -> trigger_of R compile n e t.
Proof.
  unfold vasp_stream. destruct (negb _); [discriminate|]. intros H.
  apply bind_ok in H as [k [K H]]. apply bind_ok in H as [r [Er H]]. apply bind_ok in H as [m [Em H]]. apply bind_ok in H as [k' [K' H]].
  apply bind_ok in H as [r' [Er' H]]. apply bind_ok in H as [m' [Em' H]]. apply bind_ok in H as [s' [Es H]]. apply bind_ok in H as [l' [El H]].
  apply bind_ok in H as [c' [Ec H]]. apply bind_ok in H as [i' [Ei H]]. inversion H. subst t. clear H. unfold trigger_of.
  cbn [vs_short vs_kind vs_regex vs_message vs_suggestion vs_location vs_recover vs_inverse].
  destruct (dget (lit "kind") e) as [kv|]; inversion K. subst kv. destruct (dget (lit "regex") e) as [rv|]; inversion Er. subst rv. destruct (dget (lit "message") e) as [mv|]; inversion Em. subst mv. clear K Er Em.
  split; [auto|]. split; [destruct k; try discriminate; destruct (smem _ _); inversion K'; auto|]. split; [destruct m; inversion Em'; auto|].
  split. { exists r. split; auto. destruct r; try (apply Ok_inj' in Er'; auto). destruct (compile s) as [q|]; [|discriminate]. exists q. inversion Er'. auto. }
  unfold default. split; [destruct (dget (lit "suggestion") e) as [v|]; [destruct v; inversion Es; auto|inversion Es; auto]|].
  split; [destruct (dget (lit "location") e) as [v|]; [destruct v; try discriminate; destruct (smem s allowed_locations) in El; inversion El; auto|apply Ok_inj' in El; rewrite <- El; auto]|].
  split; [destruct (dget (lit "recover") e) as [v|]; [destruct v; inversion Ec; auto|inversion Ec; auto]|].
  destruct (dget (lit "inverse") e) as [v|]; [destruct v; inversion Ei; auto|inversion Ei; auto].
Qed.
Lemma load_get {R} (config : option (sconfig R)) n : a_dict config -> dget n (load_config R config) = effective config n.
Proof.
  unfold load_config, effective. destruct config as [c|]; auto. cbn [a_dict]. generalize (default_config R).
  induction c as [|[k v] c IH]; intros d ND; cbn [fold_left dget fst snd]; auto. inversion ND as [|? ? NI ND']. subst. rewrite (IH _ ND'). destruct (seqb n k) eqn:E.
  - apply seqb_eq in E. subst k. assert (dget n c = None) as -> by (apply dget_None; auto). apply dget_dset_same.
  - destruct (dget n c); auto. apply dget_dset_other. apply seqb_neq. auto.
Qed.
Lemma default_NoDup R : NoDup (dkeys (default_config R)).
Proof.
  assert (forall l : list str, (fix nd (l : list str) := match l with [] => true | a :: r => negb (smem a r) && nd r end) l = true -> NoDup l) as K.
  { induction l as [|a l IH]; intros H; constructor; apply andb_true_iff in H as [H1 H2]; auto. intros X. apply smem_In in X. rewrite X in H1. discriminate. }
  apply K. vm_compute. reflexivity.
Qed.
Lemma load_NoDup {R} (config : option (sconfig R)) : NoDup (dkeys (load_config R config)).
Proof.
  unfold load_config. destruct config as [c|]; [|apply default_NoDup]. generalize (default_NoDup R). generalize (default_config R).
  induction c as [|e c IH]; intros d ND; cbn [fold_left]; auto. apply IH. apply dset_NoDup. auto.
Qed.
Lemma scanned_ok path handler ls : read_from_file path handler CNone = Ok ls -> ls = scanned path handler.
Proof. unfold read_from_file, file_data, scanned. destruct handler; [intros H; inversion H; auto|]. destruct path as [[t|]|]; intros H; inversion H; auto. Qed.

Section S.
Variables (R : Type) (compile : str -> option R) (search : R -> str -> bool).
Notation vstream := (vstream R).
Notation found := (found R search).
Notation noninv := (noninv R).

Lemma init_summary path handler history config o : stream_init R compile search path handler history config = Ok o ->
  let cfg := load_config R config in let ls := scanned path handler in
  exists inv, 
  (forall t, In t (configured R o) <-> exists n e, In (n, e) cfg /\ watched e /\ vasp_stream R compile n e = Ok t) /\
  NoDup (map (vs_short R) (filter noninv (configured R o) ++ inv)) /\
  (forall t, In t inv <-> In t (configured R o) /\ vs_inverse R t = true) /\
  Forall (fun ne => watched (snd ne) -> exists t, vasp_stream R compile (fst ne) (snd ne) = Ok t) cfg /\
  entries R o = (if history then flat_map (fun l => filter noninv (filter (found l) (configured R o))) ls
                 else filter noninv (first_found R search [] ls (configured R o)))
                ++ filter (fun t => negb (existsb (fun l => found l t) ls)) inv.
Proof.
  unfold stream_init. destruct (negb _ && _); [discriminate|]. intros H. apply bind_ok in H as [ks [HK H]]. apply bind_ok in H as [[tr inv] [HB H]].
  apply bind_ok in H as [ls [HR H]]. apply bind_ok in H as [all [HE H]]. apply bind_ok in H as [st [HF H]]. apply Ok_inj' in H. subst o.
  cbv zeta. set (cfg := load_config R config) in *. rewrite <- (scanned_ok _ _ _ HR). clear HR.
  destruct (set_streams_ok R cfg ks HK) as (NK & IK & FK). destruct (build_ok R compile cfg ks tr inv HB) as (mss & F & N1 & N2 & KI & KE & P1 & P2).
  assert (Forall (fun t => noninv t = false) (flat_map snd inv)) as FI.
  { apply Forall_forall. intros t Ht. apply (Permutation_in _ P2) in Ht. apply in_flat_map in Ht as (ms & _ & Ht). apply filter_In in Ht as [_ Ht]. unfold StreamProofs.noninv. rewrite Ht. auto. }
  destruct (extend_ok R ks tr inv all N1 FI HE) as (EK & EF & EI & E1 & E2).
  assert (filter noninv (flat_map snd tr) = flat_map snd tr) as TF.
  { assert (forall t, In t (flat_map snd tr) -> noninv t = true) as K. { intros t Ht. apply (Permutation_in _ P1) in Ht. apply in_flat_map in Ht as (ms & _ & Ht). apply filter_In in Ht as [_ Ht]. auto. }
    clear -K. induction (flat_map snd tr) as [|a l IH]; auto. cbn. rewrite (K a (or_introl eq_refl)). f_equal. apply IH. intros t Ht. apply K. right. auto. }
  assert (forall t, In t (flat_map snd all) <-> In t (flat_map snd tr) \/ In t (flat_map snd inv)) as IA.
  { intros t. split; [apply EI|]. intros [Ht|Ht]; [apply E1; auto|]. apply in_flat_map in Ht as ([k l] & Hk & Ht). cbn [snd] in Ht.
    assert (In k (dkeys inv)) as Kk by (apply in_map_iff; exists (k, l); auto). destruct (KI k Kk) as (kind & Hkind & ->). apply (E2 kind l t); auto. apply In_dget; auto. }
  assert (forall t, In t (flat_map snd tr) \/ In t (flat_map snd inv) <-> In t (concat mss)) as IC.
  { intros t. rewrite in_concat. split.
    - intros [Ht|Ht]; [apply (Permutation_in _ P1) in Ht|apply (Permutation_in _ P2) in Ht]; apply in_flat_map in Ht as (ms & Hm & Ht); apply filter_In in Ht as [Ht _]; eauto.
    - intros (ms & Hm & Ht). destruct (vs_inverse R t) eqn:V; [right; apply (Permutation_in _ (Permutation_sym P2))|left; apply (Permutation_in _ (Permutation_sym P1))];
        apply in_flat_map; exists ms; split; auto; apply filter_In; unfold StreamProofs.noninv; rewrite V; auto. }
  exists (flat_map snd inv). unfold configured. cbn [configured_streams entries].
  assert (forall e, watched e <-> exists k, has_kind R k e = true /\ smem (upper k) allowed_streams = true) as WK.
  { intros e. unfold watched, has_kind. split.
    - intros (k & D & A). exists k. rewrite D, seqb_refl. split; auto. apply smem_In. cbn. destruct A as [->| ->]; auto.
    - intros (k & D & A). destruct (dget (lit "kind") e) as [[| |x| |]|]; try discriminate. apply seqb_eq in D. subst x. exists k. split; auto. apply smem_In in A. cbn in A. destruct A as [<-|[<-|[]]]; auto. }
  assert (forall e, watched e -> forall n, In (n, e) cfg -> exists k, In k ks /\ has_kind R k e = true) as WI.
  { intros e W n Hn. apply WK in W as (k & K & A). exists k. split; auto. apply IK. eauto. }
  assert (forall k, In k ks -> exists ms, In ms mss /\ makes R compile cfg k ms) as FM.
  { clear -F. intros k Hk. induction F; [destruct Hk|]. destruct Hk as [->|Hk]; [exists y; split; [left|]; auto|]. destruct (IHF Hk) as (ms & I & B). exists ms. split; [right|]; auto. }
  assert (forall ms, In ms mss -> exists k, In k ks /\ makes R compile cfg k ms) as FM'.
  { clear -F. intros ms Hk. induction F; [destruct Hk|]. destruct Hk as [->|Hk]; [exists x; split; [left|]; auto|]. destruct (IHF Hk) as (k & I & B). exists k. split; [right|]; auto. }
  split; [|split; [|split; [|split]]].
  - intros t. rewrite IA, IC, in_concat. split.
    + intros (ms & Hm & Ht). destruct (FM' ms Hm) as (k & Hk & M). destruct (proj1 (makes_In R compile _ _ _ _ M) Ht) as (n & e & I1 & K1 & V). exists n, e. split; auto. split; auto.
      apply WK. exists k. split; auto. apply IK in Hk. tauto.
    + intros (n & e & I1 & W & V). destruct (WI e W n I1) as (k & Hk & K1). destruct (FM k Hk) as (ms & Hm & M). exists ms. split; auto. apply (makes_In R compile _ _ _ _ M). eauto.
  - rewrite EF, TF. pose proof (makes_NoDup R compile cfg ks mss (load_NoDup config) NK F) as ND.
    eapply Permutation_NoDup; [|exact ND]. apply Permutation_map. rewrite P1, P2. clear. induction mss as [|ms mss IH]; auto. cbn [concat flat_map].
    transitivity ((filter noninv ms ++ filter (vs_inverse R) ms) ++ concat mss).
    + apply Permutation_app_tail. clear. induction ms as [|t ms IH]; auto. cbn [filter]. unfold StreamProofs.noninv at 1. destruct (vs_inverse R t); cbn [negb].
      * etransitivity; [apply perm_skip; exact IH|]. apply Permutation_middle.
      * cbn [app]. apply perm_skip. exact IH.
    + rewrite IH. rewrite <- !app_assoc. apply Permutation_app_head. rewrite !app_assoc. apply Permutation_app_tail. apply Permutation_app_comm.
  - intros t. rewrite IA. split.
    + intros Ht. split; auto. rewrite Forall_forall in FI. specialize (FI t Ht). unfold StreamProofs.noninv in FI. destruct (vs_inverse R t); auto.
    + intros [[Ht|Ht] V]; auto. rewrite <- TF in Ht. apply filter_In in Ht as [_ Ht]. unfold StreamProofs.noninv in Ht. rewrite V in Ht. discriminate.
  - apply Forall_forall. intros [n e] Hn W. cbn [fst snd] in *. destruct (WI e W n Hn) as (k & Hk & K1). destruct (FM k Hk) as (ms & _ & M).
    unfold makes in M. apply mapM_ok_Forall2 in M. assert (In (n, e) (of_kind R k cfg)) as IO by (apply filter_In; auto).
    clear -M IO. induction M; [destruct IO|]. destruct IO as [->|IO]; auto. eexists. exact H.
  - unfold add_inverse.
    assert (NoDup (dkeys all)) as NA by (rewrite EK; auto).
    assert (sc_streams R st = (if history then flat_map (fun l => filter noninv (filter (found l) (flat_map snd all))) ls else filter noninv (first_found R search [] ls (flat_map snd all))) /\
            forall t, In t (flat_map snd inv) -> smem (vs_short R t) (sc_inverse R st) = existsb (fun l => found l t) ls) as [S1 S2].
    { assert (forall t, In t (flat_map snd inv) -> forall u, In u (flat_map snd all) -> vs_inverse R u = true -> vs_short R u = vs_short R t -> u = t) as UQ.
      { intros t Ht u Hu Vu E. assert (In u (flat_map snd inv)) as Hu'. { apply IA in Hu as [Hu|Hu]; auto. rewrite <- TF in Hu. apply filter_In in Hu as [_ Hu]. unfold StreamProofs.noninv in Hu. rewrite Vu in Hu. discriminate. }
        assert (NoDup (map (vs_short R) (flat_map snd inv))) as NI.
        { pose proof (makes_NoDup R compile cfg ks mss (load_NoDup config) NK F) as ND. eapply Permutation_NoDup; [apply Permutation_map; symmetry; exact P2|].
          clear -ND. assert (flat_map (filter (vs_inverse R)) mss = filter (vs_inverse R) (concat mss)) as ->. { clear. induction mss as [|a l IH]; auto. cbn. rewrite filter_app, IH. auto. }
          clear -ND. induction (concat mss) as [|a l IH]; cbn; [constructor|]. inversion ND. subst. destruct (vs_inverse R a); cbn; auto. constructor; auto. intros X. apply H1. apply in_map_iff in X as [y [E Y]]. apply filter_In in Y. apply in_map_iff. exists y. tauto. }
        clear -NI Ht Hu' E. induction (flat_map snd inv) as [|z zs IHz]; [destruct Ht|]. inversion NI. subst. destruct Ht as [->|Ht], Hu' as [->|Hu']; auto; exfalso; apply H1; apply in_map_iff; eauto. }
      destruct history.
      - destruct (from_list_on R search all ls st HF) as [S1 S2].
        { intros [k l] Hk. cbn [fst]. clear -Hk. induction all as [|[a b] all IH]; [destruct Hk|]. cbn [map fst dget]. destruct (seqb k a) eqn:E; auto. destruct Hk as [Hk|Hk]; auto. inversion Hk. subst. rewrite seqb_refl in E. discriminate. }
        split; auto. intros t Ht. apply eq_true_iff_eq. rewrite smem_In, S2, existsb_exists, in_flat_map. split.
        + intros (l & Hl & I). apply in_map_iff in I as [u [E I]]. apply filter_In in I as [I V]. apply filter_In in I as [I Fu]. rewrite (UQ t Ht u I V E) in Fu. eauto.
        + intros (l & Hl & Fl). exists l. split; auto. apply in_map_iff. exists t. split; auto. apply filter_In. split; [apply filter_In; split; auto; apply IA; auto|].
          rewrite Forall_forall in FI. specialize (FI t Ht). unfold StreamProofs.noninv in FI. destruct (vs_inverse R t); auto.
      - destruct (from_list_off R search all ls st NA HF) as [S1 S2]. split; auto. intros t Ht. apply eq_true_iff_eq. rewrite smem_In, S2. split.
        + intros I. apply in_map_iff in I as [u [E I]]. apply filter_In in I as [I V]. apply first_found_In in I as (I & _ & Fu). rewrite (UQ t Ht u I V E) in Fu. auto.
        + intros Fl. apply in_map_iff. exists t. split; auto. apply filter_In. split; [apply first_found_In; split; [apply IA; auto|auto]|].
          rewrite Forall_forall in FI. specialize (FI t Ht). unfold StreamProofs.noninv in FI. destruct (vs_inverse R t); auto. }
    rewrite S1. f_equal. clear -S2. induction inv as [|[k l] inv IH]; auto. cbn [flat_map snd] in *. rewrite filter_app, IH by (intros t Ht; apply S2; apply in_app_iff; auto).
    f_equal. apply filter_ext_in. intros t Ht. rewrite S2; auto. apply in_app_iff. auto.
Qed.
End S.

Lemma first_found_seq R search ts ls : first_found R search [] ls ts =
  flat_map (fun i => filter (fun t => negb (existsb (fun l => found R search l t) (firstn i ls)) && found R search (nth i ls []) t) ts) (seq 0 (length ls)).
Proof.
  assert (forall ls seen, first_found R search seen ls ts =
    flat_map (fun i => filter (fun t => negb (existsb (fun l => found R search l t) (seen ++ firstn i ls)) && found R search (nth i ls []) t) ts) (seq 0 (length ls))) as K.
  { clear. induction ls as [|l ls IH]; intros seen; auto. cbn [first_found length seq flat_map firstn nth]. rewrite app_nil_r. f_equal.
    rewrite IH, <- seq_shift. clear. induction (seq 0 (length ls)) as [|i q IHq]; auto. cbn [map flat_map firstn nth]. rewrite IHq. f_equal. apply filter_ext. intros t. rewrite <- app_assoc. auto. }
  apply (K ls []).
Qed.
Lemma absent_part R search (ls : list str) inv : (forall t, In t inv -> vs_inverse R t = true) ->
  filter (noninv R) (filter (fun t => negb (existsb (fun l => found R search l t) ls)) inv) = [] /\
  filter (vs_inverse R) (filter (fun t => negb (existsb (fun l => found R search l t) ls)) inv) = filter (fun t => negb (existsb (fun l => found R search l t) ls)) inv.
Proof.
  induction inv as [|t inv IH]; intros H; auto. cbn [filter]. destruct IH as [E1 E2]; [intros u Hu; apply H; right; auto|].
  destruct (negb _); auto. cbn [filter]. unfold noninv at 1. rewrite (H t (or_introl eq_refl)). cbn [negb]. rewrite E1, E2. auto.
Qed.
Lemma filter_twice {T} (f : T -> bool) l : filter f (filter f l) = filter f l.
Proof. induction l as [|a l IH]; auto. cbn. destruct (f a) eqn:E; cbn; rewrite ?E, IH; auto. Qed.
Lemma no_inverse_part R l : filter (vs_inverse R) (filter (noninv R) l) = [].
Proof. induction l as [|t l IH]; auto. cbn [filter]. unfold noninv at 1. destruct (vs_inverse R t) eqn:E; cbn [negb]; auto. cbn [filter]. rewrite E. auto. Qed.
Lemma NoDup_map_filter {T U} (f : T -> U) (g : T -> bool) l : NoDup (map f l) -> NoDup (map f (filter g l)).
Proof. induction l as [|a l IH]; intros H; auto. inversion H. subst. cbn. destruct (g a); cbn; auto. constructor; auto. intros X. apply H2. apply in_map_iff in X as [y [E Y]]. apply filter_In in Y. apply in_map_iff. exists y. tauto. Qed.
Lemma found_some R search t ls : existsb (fun l => found R search l t) ls = true <-> Exists (fun l => found R search l t = true) ls.
Proof. rewrite existsb_exists, Exists_exists. tauto. Qed.
Lemma found_none R search t ls : existsb (fun l => found R search l t) ls = false <-> Forall (fun l => found R search l t = false) ls.
Proof.
  rewrite Forall_forall. split.
  - intros H l Hl. destruct (found R search l t) eqn:E; auto. exfalso. assert (existsb (fun l => found R search l t) ls = true) by (apply existsb_exists; eauto). congruence.
  - intros H. destruct (existsb _ ls) eqn:E; auto. apply existsb_exists in E as (l & Hl & E). rewrite (H l Hl) in E. discriminate.
Qed.

(** ** C41: without history *)
(** Every configured trigger is reported at most once; a (non-inverse) configured
    trigger is reported exactly when its pattern is found in some line; the reports come
    in the order of the first lines in which they are found and, within one line, in the
    order of the configuration. *)
Theorem C41_each_once : forall R compile search path handler config o, a_dict config ->
  stream_init R compile search path handler false config = Ok o ->
  let ls := scanned path handler in
  NoDup (map (vs_short R) (entries R o)) /\
  (forall t, In t (entries R o) -> In t (configured R o)) /\
  (forall t, In t (configured R o) -> vs_inverse R t = false -> (In t (entries R o) <-> Exists (fun l => found R search l t = true) ls)) /\
  filter (fun t => negb (vs_inverse R t)) (entries R o) =
    flat_map (fun i => filter (fun t => negb (vs_inverse R t) && negb (existsb (fun l => found R search l t) (firstn i ls)) && found R search (nth i ls []) t) (configured R o))
             (seq 0 (length ls)).
Proof.
  intros R compile search path handler config o _ H ls. destruct (init_summary R compile search _ _ _ _ _ H) as (inv & _ & ND & II & _ & E). fold ls in E. cbv beta iota in E.
  assert (forall t, In t inv -> vs_inverse R t = true) as VI by (intros t Ht; apply II in Ht; tauto). destruct (absent_part R search ls inv VI) as [A1 A2].
  rewrite E. split; [|split; [|split]].
  - rewrite map_app in ND |- *.
    assert (filter (noninv R) (first_found R search [] ls (configured R o)) = first_found R search [] ls (filter (noninv R) (configured R o))) as EF.
    { rewrite !first_found_seq, filter_flat. apply flat_map_ext. intros i. apply filter_comm. }
    rewrite EF. rewrite <- map_app in ND |- *. 
    assert (forall a b c d : list (vstream R), NoDup (map (vs_short R) (a ++ b)) -> NoDup (map (vs_short R) c) -> NoDup (map (vs_short R) d) -> incl c a -> incl d b -> NoDup (map (vs_short R) (c ++ d))) as K.
    { clear. intros a b c d N1 N2 N3 Ic Id. rewrite map_app in *. induction c as [|x c IH]; auto. inversion N2. subst. cbn. constructor.
      - intros X. apply in_app_iff in X as [X|X]; auto. 
        assert (In (vs_short R x) (map (vs_short R) a)) as Xa by (apply in_map; apply Ic; left; auto).
        assert (In (vs_short R x) (map (vs_short R) b)) as Xb. { apply in_map_iff in X as [y [Ey Y]]. rewrite <- Ey. apply in_map. auto. }
        clear -N1 Xa Xb. induction (map (vs_short R) a) as [|z zs IHz]; [destruct Xa|]. inversion N1. subst. destruct Xa as [->|Xa]; auto. apply H1. apply in_app_iff. auto.
      - apply IH; auto. intros z Hz. apply Ic. right. auto. }
    eapply K; [exact ND| | | |].
    + apply first_found_NoDup. rewrite map_app in ND. clear -ND. induction (map (vs_short R) (filter (noninv R) (configured R o))) as [|a l IH]; [constructor|]. inversion ND. subst. constructor; auto. intros X. apply H1. apply in_app_iff. auto.
    + apply NoDup_map_filter. rewrite map_app in ND. clear -ND. induction (map (vs_short R) (filter (noninv R) (configured R o))) as [|a l IH]; auto. inversion ND. auto.
    + intros t Ht. apply first_found_In in Ht. tauto.
    + intros t Ht. apply filter_In in Ht. tauto.
  - intros t Ht. apply in_app_iff in Ht as [Ht|Ht]; apply filter_In in Ht as [Ht _]; [apply first_found_In in Ht; tauto|apply II in Ht; tauto].
  - intros t Ht V. rewrite in_app_iff, !filter_In, first_found_In, <- found_some. unfold noninv. rewrite V. cbn [negb existsb]. split.
    + intros [[(_ & _ & F) _]|[X _]]; auto. apply VI in X. congruence.
    + intros F. left. auto.
  - change (fun t : vstream R => negb (vs_inverse R t)) with (noninv R). rewrite filter_app, A1, app_nil_r, filter_twice, first_found_seq, filter_flat.
    apply flat_map_ext. intros i. rewrite filter_comm. clear. induction (configured R o) as [|t l IH]; auto. cbn [filter]. unfold noninv at 1. destruct (vs_inverse R t); cbn [negb andb filter]; auto.
    destruct (_ && _); rewrite IH; auto.
Qed.
Print Assumptions C41_each_once.

(** ** C42: with history *)
(** The reports of non-inverse triggers are exactly the pairs (line, trigger found in
    it), line by line and in the order of the configuration within a line; they come
    before the reports of inverse triggers. *)
Theorem C42_every_occurrence : forall R compile search path handler config o, a_dict config ->
  stream_init R compile search path handler true config = Ok o ->
  exists absent, Forall (fun t => vs_inverse R t = true) absent /\
  entries R o = flat_map (fun l => filter (fun t => negb (vs_inverse R t) && found R search l t) (configured R o)) (scanned path handler) ++ absent.
Proof.
  intros R compile search path handler config o _ H. destruct (init_summary R compile search _ _ _ _ _ H) as (inv & _ & ND & II & _ & E). cbv beta iota in E.
  eexists. split; [|rewrite E; f_equal].
  - apply Forall_forall. intros t Ht. apply filter_In in Ht as [Ht _]. apply II in Ht. tauto.
  - apply flat_map_ext. intros l. rewrite filter_comm. clear. induction (configured R o) as [|t q IH]; auto. cbn [filter]. unfold noninv at 1. destruct (vs_inverse R t); cbn [negb andb filter]; auto.
    destruct (found R search l t); rewrite IH; auto.
Qed.
Print Assumptions C42_every_occurrence.

(** ** C43: inverse triggers *)
(** With or without history, a configured inverse trigger is reported exactly when no
    line contains its pattern, and then exactly once. *)
Theorem C43_inverse : forall R compile search path handler history config o, a_dict config ->
  stream_init R compile search path handler history config = Ok o ->
  NoDup (map (vs_short R) (filter (vs_inverse R) (entries R o))) /\
  forall t, In t (configured R o) -> vs_inverse R t = true ->
    (In t (entries R o) <-> Forall (fun l => found R search l t = false) (scanned path handler)).
Proof.
  intros R compile search path handler history config o _ H. destruct (init_summary R compile search _ _ _ _ _ H) as (inv & _ & ND & II & _ & E). cbv zeta in E.
  set (ls := scanned path handler) in *. assert (forall t, In t inv -> vs_inverse R t = true) as VI by (intros t Ht; apply II in Ht; tauto). destruct (absent_part R search ls inv VI) as [A1 A2].
  set (rep := if history then _ else _) in E.
  assert (filter (vs_inverse R) rep = []) as ER.
  { unfold rep. destruct history; [|apply no_inverse_part]. rewrite filter_flat. clearbody ls. clear. induction ls as [|l q IH]; auto. cbn [flat_map]. rewrite no_inverse_part. auto. }
  rewrite E. rewrite filter_app, ER, A2. split.
  - apply NoDup_map_filter. rewrite map_app in ND. clear -ND. induction (map (vs_short R) (filter (noninv R) (configured R o))) as [|a l IH]; auto. inversion ND. auto.
  - intros t Ht V. rewrite in_app_iff, filter_In, <- found_none. split.
    + intros [X|[_ X]]; [|destruct (existsb _ ls); auto; discriminate]. exfalso. assert (In t (filter (vs_inverse R) rep)) as Y by (apply filter_In; auto). rewrite ER in Y. destruct Y.
    + intros X. right. split; [apply II; auto|rewrite X; auto].
Qed.
Print Assumptions C43_inverse.

(** ** C44: configuration *)
(** The triggers of an object are exactly those described by the entries in force (the
    user's entry under a name, otherwise the default one) whose kind is an error or a
    warning: an entry given by the user replaces the whole default entry of that name
    and affects no other name. *)
Theorem C44_overrides : forall R compile search path handler history config o, a_dict config ->
  stream_init R compile search path handler history config = Ok o ->
  (forall t, In t (configured R o) -> exists e, effective config (vs_short R t) = Some e /\ watched e /\ trigger_of R compile (vs_short R t) e t) /\
  (forall n e, effective config n = Some e -> watched e -> exists t, In t (configured R o) /\ trigger_of R compile n e t).
Proof.
  intros R compile search path handler history config o D H. destruct (init_summary R compile search _ _ _ _ _ H) as (inv & C & _ & _ & F & _). split.
  - intros t Ht. apply C in Ht as (n & e & I & W & V). pose proof (trigger_of_ok _ _ _ _ _ V) as T. destruct T as (<- & T). exists e. split; [|split; [auto|split; auto]].
    rewrite <- (load_get config (vs_short R t) D). apply In_dget; auto. apply load_NoDup.
  - intros n e G W. rewrite <- (load_get config n D) in G. apply dget_In in G. rewrite Forall_forall in F. destruct (F (n, e) G W) as [t V]. cbn [fst snd] in V. exists t. split; [apply C; eauto|apply trigger_of_ok; auto].
Qed.
Print Assumptions C44_overrides.

(** ** C45: has_entries and number_of_entries *)
Theorem C45_has_entries : forall R compile search path handler history config o, a_dict config ->
  stream_init R compile search path handler history config = Ok o ->
  (has_entries R o = false <->
   forall t, In t (configured R o) -> 
     if vs_inverse R t then Exists (fun l => found R search l t = true) (scanned path handler)
     else Forall (fun l => found R search l t = false) (scanned path handler)).
Proof.
  intros R compile search path handler history config o D H. pose proof (C43_inverse R compile search _ _ _ _ _ D H) as [_ IV].
  assert (forall t, In t (configured R o) -> vs_inverse R t = false -> (In t (entries R o) <-> Exists (fun l => found R search l t = true) (scanned path handler))) as NV.
  { destruct history; [|apply (C41_each_once R compile search _ _ _ _ D H)]. destruct (C42_every_occurrence R compile search _ _ _ _ D H) as (abs & FA & E). intros t Ht V. rewrite E, in_app_iff, in_flat_map, Exists_exists. split.
    - intros [(l & Hl & X)|X]; [apply filter_In in X as [_ X]; apply andb_true_iff in X as [_ X]; eauto|]. rewrite Forall_forall in FA. rewrite (FA t X) in V. discriminate.
    - intros (l & Hl & X). left. exists l. split; auto. apply filter_In. rewrite V, X. auto. }
  assert (has_entries R o = false <-> entries R o = []) as -> by (unfold has_entries; destruct (entries R o); split; congruence).
  split.
  - intros E t Ht. destruct (vs_inverse R t) eqn:V.
    + apply found_some. destruct (existsb _ _) eqn:X; auto. apply found_none in X. apply (IV t Ht V) in X. rewrite E in X. destruct X.
    + apply found_none. destruct (existsb _ _) eqn:X; auto. apply found_some in X. apply (NV t Ht V) in X. rewrite E in X. destruct X.
  - intros K. assert (forall t, In t (entries R o) -> In t (configured R o)) as IC.
    { destruct (init_summary R compile search _ _ _ _ _ H) as (inv & _ & _ & II & _ & E). rewrite E. intros t Ht. apply in_app_iff in Ht as [Ht|Ht].
      - destruct history; [apply in_flat_map in Ht as (l & _ & Ht); apply filter_In in Ht as [Ht _]; apply filter_In in Ht; tauto|]. apply filter_In in Ht as [Ht _]. apply first_found_In in Ht. tauto.
      - apply filter_In in Ht as [Ht _]. apply II in Ht. tauto. }
    destruct (entries R o) as [|t q] eqn:E; auto. exfalso. assert (In t (configured R o)) as Ht by (apply IC; left; auto). specialize (K t Ht). destruct (vs_inverse R t) eqn:V.
    + apply found_some in K. assert (existsb (fun l => found R search l t) (scanned path handler) = false) by (apply found_none; apply (IV t Ht V); left; auto). congruence.
    + apply found_none in K. assert (existsb (fun l => found R search l t) (scanned path handler) = true) by (apply found_some; apply (NV t Ht V); left; auto). congruence.
Qed.
Print Assumptions C45_has_entries.
(** number_of_entries is documented as the number of unique streams: so it is without
    history ... *)
Definition unique {T} (l : list T) (n : nat) : Prop := exists u, NoDup u /\ (forall x, In x u <-> In x l) /\ n = length u.
Theorem C45_count_partial : forall R compile search path handler config o, a_dict config ->
  stream_init R compile search path handler false config = Ok o ->
  unique (map (vs_short R) (entries R o)) (number_of_entries R o).
Proof.
  intros R compile search path handler config o D H. destruct (C41_each_once R compile search _ _ _ _ D H) as (ND & _). exists (map (vs_short R) (entries R o)).
  split; [auto|]. split; [tauto|]. unfold number_of_entries. rewrite map_length. auto.
Qed.
Print Assumptions C45_count_partial.
Lemma NoDup_apart {T} (a b c d : list T) x : NoDup (a ++ b ++ c ++ d) -> In x b -> In x c -> False.
Proof.
  intros ND H1 H2. induction a as [|z a IH]; [|apply NoDup_cons_iff in ND as [_ ND]; auto]. cbn [app] in ND. induction b as [|z b IH]; [destruct H1|].
  cbn [app] in ND. apply NoDup_cons_iff in ND as [NI ND]. destruct H1 as [->|H1]; auto. apply NI. rewrite !in_app_iff. auto.
Qed.
(** ... and with history it is not, as soon as some trigger is found in two lines *)
Theorem C45_count_refuted : forall R compile search path handler config o i j l l' t n, a_dict config ->
  stream_init R compile search path handler true config = Ok o ->
  In t (configured R o) -> vs_inverse R t = false -> i < j ->
  nth_error (scanned path handler) i = Some l -> nth_error (scanned path handler) j = Some l' -> found R search l t = true -> found R search l' t = true ->
  unique (map (vs_short R) (entries R o)) n -> n < number_of_entries R o.
Proof.
  intros R compile search path handler config o i j l l' t n D H Ht V L N1 N2 F1 F2 (u & NU & IU & ->).
  destruct (C42_every_occurrence R compile search _ _ _ _ D H) as (abs & _ & E). unfold number_of_entries.
  assert (~ NoDup (map (vs_short R) (entries R o))) as NN.
  { intros ND. rewrite E in ND. apply nth_error_split in N1 as (a & b & E1 & La). rewrite E1 in N2, ND. rewrite flat_map_app in ND. cbn [flat_map] in ND. rewrite !map_app in ND.
    assert (In l' b) as Hb. { rewrite nth_error_app2 in N2 by lia. destruct (j - length a) as [|q] eqn:Q; [lia|]. cbn in N2. apply nth_error_In in N2. auto. }
    set (f := fun l0 => filter _ (configured R o)) in *.
    assert (In (vs_short R t) (map (vs_short R) (f l))) as X1 by (apply in_map; unfold f; apply filter_In; rewrite V, F1; auto).
    assert (In (vs_short R t) (map (vs_short R) (flat_map f b))) as X2 by (apply in_map; apply in_flat_map; exists l'; split; auto; unfold f; apply filter_In; rewrite V, F2; auto).
    rewrite <- !app_assoc in ND. eapply NoDup_apart; [exact ND|exact X1|exact X2]. }
  assert (incl u (map (vs_short R) (entries R o))) as IC by (intros x Hx; apply IU; auto).
  pose proof (NoDup_incl_length NU IC) as LE. rewrite map_length in LE.
  destruct (Nat.eq_dec (length u) (length (entries R o))) as [EQ|NE]; [|lia]. exfalso. apply NN.
  apply NoDup_incl_NoDup with (l := u); auto. - rewrite map_length. lia. 
Qed.
Print Assumptions C45_count_refuted.

(** ** C61: the default configuration *)
(** [m] is an instance of the pattern text [p], in which a dot stands for any character
    but a newline *)
Definition instance (p m : str) : Prop := Forall2 (fun a c => if aeqb a "." then c <> nl else c = a) p m.
Definition plain_text (p : str) : Prop := Forall (fun c => ~ In c (lit "^$*+?{}[]\|()")) p.
Lemma compile_plain_ok p : plain_text p -> exists q, compile_plain p = Some q.
Proof.
  induction p as [|c p IH]; intros H; [exists []; auto|]. inversion H as [|? ? NC F]. subst. destruct (IH F) as [q Q]. cbn [compile_plain]. 
  destruct (charb c meta_chars) eqn:E; [|rewrite Q; eauto]. exfalso. apply NC. unfold charb in E. apply existsb_exists in E as (x & Hx & E). apply aeqb_eq in E. subst x. exact Hx.
Qed.
Lemma matches_here_ok p q l : compile_plain p = Some q -> (matches_here q l = true <-> exists m b, l = m ++ b /\ instance p m).
Proof.
  revert q l. induction p as [|c p IH]; intros q l H; cbn [compile_plain] in H.
  - inversion H. cbn. split; auto. intros _. exists [], l. split; auto. constructor.
  - destruct (charb c meta_chars); [discriminate|]. destruct (compile_plain p) as [r|]; [|discriminate]. inversion H. subst q. clear H. destruct l as [|d l]; cbn [matches_here].
    + split; [discriminate|]. intros (m & b & E & I). inversion I. subst. discriminate.
    + rewrite andb_true_iff, (IH r l eq_refl). split.
      * intros (A & m & b & -> & I). exists (d :: m), b. split; auto. constructor; auto. destruct (aeqb c ".") eqn:D; cbn [atom_matches] in A; [intros ->; rewrite aeqb_refl in A; discriminate|apply aeqb_eq; auto].
      * intros (m & b & E & I). inversion I as [|? d' ? m' X F]. subst. inversion E. subst d' l. split; [|eauto]. destruct (aeqb c ".") eqn:D; cbn [atom_matches].
        -- destruct (aeqb d nl) eqn:G; auto. apply aeqb_eq in G. contradiction.
        -- apply aeqb_eq. auto.
Qed.
Lemma search_plain_ok p q l : compile_plain p = Some q -> (search_plain q l = true <-> exists a m b, l = a ++ m ++ b /\ instance p m).
Proof.
  intros H. induction l as [|c l IH]; cbn [search_plain]; rewrite orb_true_iff, (matches_here_ok p q _ H).
  - split; [intros [(m & b & E & I)|X]; [exists [], m, b; auto|discriminate]|]. intros (a & m & b & E & I). left. destruct a; [|discriminate]. exists m, b. split; [exact E|exact I].
  - rewrite IH. split.
    + intros [(m & b & E & I)|(a & m & b & -> & I)]; [exists [], m, b; auto|exists (c :: a), m, b; auto].
    + intros ([|x a] & m & b & E & I); [left; exists m, b; split; [exact E|exact I]|right]. inversion E. subst. exists a, m, b. auto.
Qed.
Definition is_regex R (t : vstream R) : bool := match vs_regex R t with SRegex _ _ => true | _ => false end.
Lemma from_list_total R search history trs ls : forallb (fun kt => forallb (is_regex R) (snd kt)) trs = true -> exists st, from_list R search history trs ls = Ok st.
Proof.
  intros H. unfold from_list.
  assert (forall ls st, (forall k ts, In (k, ts) trs -> exists g, dget k (sc_ignore R st) = Some g) -> exists st', foldM (scan_line R search history trs) ls st = Ok st') as K.
  2:{ apply K. intros k ts Hk. clear -Hk. cbn [sc_ignore]. induction trs as [|[a b] trs IH]; [destruct Hk|]. cbn [map fst dget]. destruct (seqb k a) eqn:E; [eauto|]. destruct Hk as [Hk|Hk]; auto. inversion Hk. subst. rewrite seqb_refl in E. discriminate. }
  assert (forall line k its st, (exists g, dget k (sc_ignore R st) = Some g) -> forallb (is_regex R) (map snd its) = true ->
    exists st', foldM (scan_trigger R search history line k) its st = Ok st' /\ forall x g, dget x (sc_ignore R st) = Some g -> exists g', dget x (sc_ignore R st') = Some g') as K1.
  { clear. intros line k. induction its as [|[i t] its IH]; intros st [g G] F; cbn [foldM]; [exists st; split; eauto|]. cbn [map forallb snd] in F. apply andb_true_iff in F as [F1 F2].
    unfold scan_trigger at 1. rewrite G. cbn [of_option bind fst snd]. destruct (existsb _ g); cbn [bind]; [apply IH; eauto|]. unfold check_line, is_regex in *. destruct (vs_regex R t) as [| | |r|]; try discriminate. cbn [bind].
    destruct (search r line); cbn [bind]; [|apply IH; eauto]. set (st1 := Scan R _ _ _).
    assert (forall x g0, dget x (sc_ignore R st) = Some g0 -> exists g', dget x (sc_ignore R st1) = Some g') as M.
    { intros x g0 Hx. unfold st1. cbn [sc_ignore]. destruct history; [eauto|]. destruct (seqb x k) eqn:E; [apply seqb_eq in E; subst; rewrite dget_dset_same; eauto|]. rewrite dget_dset_other by (apply seqb_neq; auto). eauto. }
    destruct (IH st1 (M k g G) F2) as (st' & E & M'). exists st'. split; auto. intros x g0 Hx. destruct (M x g0 Hx) as [g1 G1]. eauto. }
  assert (forall line trs st, (forall k ts, In (k, ts) trs -> exists g, dget k (sc_ignore R st) = Some g) -> forallb (fun kt => forallb (is_regex R) (snd kt)) trs = true ->
    exists st', scan_line R search history trs st line = Ok st' /\ forall x g, dget x (sc_ignore R st) = Some g -> exists g', dget x (sc_ignore R st') = Some g') as K2.
  { clear -K1. intros line. unfold scan_line. induction trs as [|[k ts] trs IH]; intros st G F; cbn [foldM]; [exists st; split; eauto|]. cbn [forallb snd fst] in *. apply andb_true_iff in F as [F1 F2].
    destruct (K1 line k (enumerate ts) st (G k ts (or_introl eq_refl))) as (st1 & E1 & M1); [rewrite snd_enumerate; auto|]. rewrite E1. cbn [bind].
    destruct (IH st1) as (st2 & E2 & M2); auto.
    - intros k' ts' Hk. destruct (G k' ts' (or_intror Hk)) as [g Hg]. eauto.
    - exists st2. split; auto. intros x g Hg. destruct (M1 x g Hg) as [g1 G1]. eauto. }
  clear -H K2. induction ls as [|l ls IH]; intros st G; cbn [foldM]; [eauto|]. destruct (K2 l trs st G H) as (st1 & E1 & M1). rewrite E1. cbn [bind]. apply IH.
  intros k ts Hk. destruct (G k ts Hk) as [g Hg]. eauto.
Qed.
(** With the default configuration no readable stream makes the constructor fail; the
    27 triggers are all watched and each is found in a line exactly when the line
    contains an instance of the pattern given in the configuration file; VASP not having
    been started is reported exactly when no line contains 'vasp' followed by a character
    of the same line. *)
Theorem C61_default_parses : forall path handler history, (exists txt, handler = Some txt) \/ (exists txt, path = Some (Some txt)) ->
  exists o, stream_init _ compile_plain search_plain path handler history None = Ok o.
Proof.
  intros path handler history H. unfold stream_init.
  assert (negb (is_some path) && negb (is_some handler) = false) as ->. { destruct H as [[t ->]|[t ->]]; cbn; auto. apply andb_false_r. }
  assert (exists ls, read_from_file path handler CNone = Ok ls) as [ls ->].
  { unfold read_from_file, file_data. destruct H as [[t ->]|[t ->]]; cbn [bind]; [eauto|]. destruct handler; cbn [bind]; eauto. }
  assert (exists K, set_streams _ (load_config (list atom) None) = Ok K /\ exists tr inv, build_triggers _ compile_plain K (load_config (list atom) None) = Ok (tr, inv) /\
    exists all, extend_triggers _ K tr inv = Ok all /\ forallb (fun kt => forallb (is_regex (list atom)) (snd kt)) all = true) as (K & -> & tr & inv & E & all & E2 & F).
  { eexists. split; [vm_compute; reflexivity|]. eexists _, _. split; [vm_compute; reflexivity|]. eexists. split; vm_compute; reflexivity. }
  cbn [bind]. rewrite E. cbn [bind]. rewrite E2. cbn [bind]. destruct (from_list_total _ search_plain history all ls F) as [st ->]. cbn [bind]. eauto.
Qed.
Print Assumptions C61_default_parses.
Lemma instance_cons c p m : instance (c :: p) m -> exists x m', m = x :: m' /\ (if aeqb c "." then x <> nl else x = c) /\ instance p m'.
Proof. intros H. inversion H. subst. eexists _, _. repeat split; eauto. Qed.
Theorem C61_default_meaning : forall path handler history o, stream_init _ compile_plain search_plain path handler history None = Ok o ->
  (forall n e, In (n, e) (default_config (list atom)) -> exists t, In t (configured _ o) /\ vs_short _ t = n) /\
  (forall t, In t (configured _ o) -> exists e p, dget (vs_short _ t) (default_config (list atom)) = Some e /\ dget (lit "regex") e = Some (SStr _ p) /\
     forall l, found _ search_plain l t = true <-> exists a m b, l = a ++ m ++ b /\ instance p m) /\
  ((exists t, In t (entries _ o) /\ vs_short _ t = lit "nostart") <-> ~ exists l a c b, In l (scanned path handler) /\ l = a ++ lit "vasp" ++ c :: b /\ c <> nl).
Proof.
  intros path handler history o H. destruct (C44_overrides _ _ _ _ _ _ None o I H) as [C1 C2].
  assert (forall n e, In (n, e) (default_config (list atom)) -> watched e /\ exists p, dget (lit "regex") e = Some (SStr _ p) /\ plain_text p) as DW.
  { assert (forallb (fun ne : str * dict (sval (list atom)) => match dget (lit "kind") (snd ne), dget (lit "regex") (snd ne) with Some (SStr _ k), Some (SStr _ p) => seqb k (lit "ERROR") && forallb (fun c => negb (charb c meta_chars)) p | _, _ => false end) (default_config (list atom)) = true) as K by (vm_compute; reflexivity).
    rewrite forallb_forall in K. intros n e Hn. specialize (K _ Hn). cbn [snd] in K. unfold watched. destruct (dget (lit "kind") e) as [[| |k| |]|]; try discriminate. destruct (dget (lit "regex") e) as [[| |p| |]|]; try discriminate.
    apply andb_true_iff in K as [K1 K2]. apply seqb_eq in K1. subst k. split; [exists (lit "ERROR"); split; auto|]. exists p. split; auto. apply Forall_forall. intros c Hc X. rewrite forallb_forall in K2. specialize (K2 c Hc). apply negb_true_iff in K2.
    assert (charb c meta_chars = true); [|congruence]. unfold charb. apply existsb_exists. exists c. split; [exact X|apply aeqb_refl]. }
  assert (forall t, In t (configured _ o) -> exists e p, dget (vs_short _ t) (default_config (list atom)) = Some e /\ dget (lit "regex") e = Some (SStr _ p) /\
     forall l, found _ search_plain l t = true <-> exists a m b, l = a ++ m ++ b /\ instance p m) as MN.
  { intros t Ht. destruct (C1 t Ht) as (e & G & W & T). change (effective None (vs_short _ t)) with (dget (vs_short _ t) (default_config (list atom))) in G. destruct (DW _ _ (dget_In _ _ _ G)) as [_ (p & P & PT)]. exists e, p. split; [auto|]. split; [auto|].
    destruct T as (_ & _ & _ & (v & Hv & M) & _). rewrite P in Hv. inversion Hv. subst v. destruct M as (r & Cr & Rr). intros l. unfold found. rewrite Rr. apply search_plain_ok. auto. }
  split; [|split; [exact MN|]].
  - intros n e Hn. destruct (C2 n e) as (t & Ht & T); [change (dget n (default_config (list atom)) = Some e); apply In_dget; [apply default_NoDup|auto]|apply (DW n e Hn)|]. exists t. split; auto. apply T.
  - destruct (C43_inverse _ _ _ _ _ _ None o I H) as [_ IV].
    assert (exists e, dget (lit "nostart") (default_config (list atom)) = Some e /\ dget (lit "inverse") e = Some (SBool _ true) /\ dget (lit "regex") e = Some (SStr _ (lit "vasp."))) as (e & Ge & Ie & Re) by (eexists; split; [vm_compute; reflexivity|split; vm_compute; reflexivity]).
    destruct (C2 (lit "nostart") e Ge) as (t & Ht & T); [apply (DW (lit "nostart") e); apply dget_In; auto|].
    assert (vs_inverse _ t = true) as V. { destruct T as (_ & _ & _ & _ & _ & _ & _ & T). rewrite Ie in T. cbn in T. inversion T. auto. }
    assert (vs_short _ t = lit "nostart") as SN by apply T.
    assert (forall l, found _ search_plain l t = true <-> exists a c b, l = a ++ lit "vasp" ++ c :: b /\ c <> nl) as FT.
    { destruct (MN t Ht) as (e' & p & G' & P & M). rewrite SN, Ge in G'. inversion G'. subst e'. rewrite Re in P. inversion P as [EP]. intros l. rewrite M, <- EP. split.
      - intros (a & m & b & -> & IM). change (lit "vasp.") with (["v"; "a"; "s"; "p"; "."]%char) in IM.
        apply instance_cons in IM as (y1 & m1 & -> & A1 & IM). apply instance_cons in IM as (y2 & m2 & -> & A2 & IM). apply instance_cons in IM as (y3 & m3 & -> & A3 & IM). apply instance_cons in IM as (y4 & m4 & -> & A4 & IM). apply instance_cons in IM as (y5 & m5 & -> & A5 & IM). inversion IM.
        vm_compute in A1, A2, A3, A4. subst. exists a, y5, b. split; auto.
      - intros (a & c & b & -> & NC). exists a, (lit "vasp" ++ [c]), b. split; [rewrite <- app_assoc; auto|]. unfold instance, lit. cbn. repeat constructor. exact NC. }
    split.
    + intros (u & Hu & Su) (l & a & c & b & Hl & El & NC).
      assert (In u (configured _ o)) as Cu.
      { destruct (init_summary _ _ _ _ _ _ _ _ H) as (inv & _ & _ & II & _ & E). rewrite E in Hu. apply in_app_iff in Hu as [Hu|Hu].
        - destruct history; [apply in_flat_map in Hu as (l' & _ & Hu); apply filter_In in Hu as [Hu _]; apply filter_In in Hu; tauto|]. apply filter_In in Hu as [Hu _]. apply first_found_In in Hu. tauto.
        - apply filter_In in Hu as [Hu _]. apply II in Hu. tauto. }
      assert (u = t) as ->.
      { destruct (C1 u Cu) as (e1 & G1 & _ & T1). rewrite Su in G1, T1. change (effective None (lit "nostart")) with (dget (lit "nostart") (default_config (list atom))) in G1. rewrite Ge in G1. inversion G1. subst e1.
        clear -T T1. destruct T as (A1 & A2 & A3 & (v & A4 & A4') & A5 & A6 & A7 & A8), T1 as (B1 & B2 & B3 & (w & B4 & B4') & B5 & B6 & B7 & B8). destruct t as [t1 t2 t3 t4 t5 t6 t7 t8], u as [u1 u2 u3 u4 u5 u6 u7 u8].
        cbn [vs_short vs_kind vs_regex vs_message vs_suggestion vs_location vs_recover vs_inverse] in *. rewrite A2 in B2. rewrite A3 in B3. rewrite A4 in B4. rewrite A5 in B5. rewrite A6 in B6. rewrite A7 in B7. rewrite A8 in B8.
        inversion B2. inversion B3. inversion B4. subst w. inversion B6. inversion B7. inversion B8. subst. f_equal.
        - destruct v; try congruence. destruct A4' as (r1 & R1 & ->), B4' as (r2 & R2 & ->). congruence.
        - destruct t5, u5; congruence. }
      apply (IV t Ht V) in Hu. rewrite Forall_forall in Hu. specialize (Hu l Hl). assert (found _ search_plain l t = true); [|congruence]. apply FT. eauto.
    + intros N. exists t. split; auto. apply (IV t Ht V). apply Forall_forall. intros l Hl. destruct (found _ search_plain l t) eqn:F; auto. exfalso. apply N. apply FT in F as (a & c & b & E & NC). exists l, a, c, b. auto.
Qed.
Print Assumptions C61_default_meaning.

(** ** The hypotheses are met *)
Definition a_stream : str := concat (map (fun s => lit s ++ [nl]) ["running on 4 nodes"; "TOO FEW BANDS"; "internal error in subroutine IBZKPT"; "TOO FEW BANDS again"; "custom"]%string).
Definition user_config : sconfig (list atom) :=
  [(lit "bandocc", [(lit "kind", SStr _ (lit "Warning")); (lit "regex", SStr _ (lit "TOO FEW.BANDS")); (lit "message", SStr _ (lit "few"))]);
   (lit "mine", [(lit "kind", SStr _ (lit "ERROR")); (lit "regex", SStr _ (lit "custom")); (lit "message", SStr _ (lit "c")); (lit "inverse", SBool _ true)])].
Definition names (r : res (stream (list atom))) : list str := match r with Ok o => map (vs_short _) (entries _ o) | Exn _ => [] end.
Example stream_case :
  names (stream_init _ compile_plain search_plain None (Some a_stream) false None) = map lit ["bandocc"; "ibzkpt"; "nostart"]%string /\
  names (stream_init _ compile_plain search_plain None (Some a_stream) true None) = map lit ["bandocc"; "ibzkpt"; "bandocc"; "nostart"]%string /\
  names (stream_init _ compile_plain search_plain None (Some a_stream) false (Some user_config)) = map lit ["bandocc"; "ibzkpt"; "nostart"]%string /\
  names (stream_init _ compile_plain search_plain (Some (Some (lit "vasp.6"))) None false (Some user_config)) = map lit ["mine"]%string.
Proof. repeat split; vm_compute; reflexivity. Qed.
Example stream_dict : a_dict (Some user_config).
Proof. repeat constructor; cbn; intros H; repeat (destruct H as [H|H]; [discriminate|]); destruct H. Qed.
Example stream_watched : watched (R := list atom) [(lit "kind", SStr _ (lit "Warning"))] /\ ~ watched (R := list atom) [(lit "kind", SStr _ (lit "note"))].
Proof.
  split; [eexists; split; [reflexivity|right; reflexivity]|]. intros (k & H & K). apply (f_equal (fun o => match o with Some (SStr _ x) => x | _ => [] end)) in H. subst k. destruct K; discriminate.
Qed.
