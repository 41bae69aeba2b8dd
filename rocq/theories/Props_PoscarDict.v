(** Properties C25, C35, C86: get, get_dict and refused edits of a POSCAR object. *)
From Coq Require Import Ascii String List NArith ZArith QArith Qabs Bool Lia Arith Permutation.
From Verif Require Import PyBase PyNum PyStrLemmas PyNumLemmas PyFmtLemmas PyLines PyToken UtilsModel KpointsModel KpointsSpec KpointsEdits KpointsCodes
  PoscarModel ArithModel PoscarGroup PoscarSpec PoscarRead PoscarRoundTrip PoscarTheorems PoscarErrors Props_Poscar.
Import ListNotations.
Local Open Scope list_scope.
Local Open Scope bool_scope.
Local Open Scope nat_scope.

(** ** C25: get *)
Theorem C25_poscar_get_absent_partial : forall A (es : pentries A) k, dget k es = None -> PoscarModel.get A es k = Ok (PNone A).
Proof. intros A es k H. unfold PoscarModel.get. rewrite H. reflexivity. Qed.
Theorem C25_poscar_get_refuted : forall A (es : pentries A) k v, dget k es = Some v -> PoscarModel.get A es k = Exn AttributeError.
Proof. intros A es k v H. unfold PoscarModel.get. rewrite H. reflexivity. Qed.

(** ** C35: edits that are refused *)
(** a value that is not a Site (None apart: it deletes), a number that is not an integer, a
    list of sites that is not a list: exit 13, and nothing is stored *)
Theorem C35_refused : forall A es l entry v n,
  pholds es "sites" (PSites A l) -> In entry (map lit ["comment"; "unitcell"; "sites"]%string) ->
  (v <> PNone A -> (forall s, v <> PSite A s) -> modify A es entry v (Some n) = Exn (SysExit 13)) /\
  (forall s, modify A es entry (PSite A s) (Some INot) = Exn (SysExit 13)) /\ delete_site A es INot = Exn (SysExit 13) /\
  ((forall l', v <> PSites A l') -> v <> PNone A -> modify A es (lit "sites") v None = Exn (SysExit 13)).
Proof.
  intros A es l entry v n H HE. assert (check_allowed entry = Ok tt) as CA by (repeat (destruct HE as [<-|HE]; [vm_compute; reflexivity|]); destruct HE).
  unfold pholds in H. split; [|split; [|split]].
  - intros N NS. unfold modify. rewrite CA. cbn [bind]. destruct v; try congruence; try reflexivity.
  - intros s. unfold modify. rewrite CA. reflexivity.
  - unfold delete_site, check_sites, arg_or, pkey. rewrite H. reflexivity.
  - intros NS N. unfold modify. change (check_allowed (lit "sites")) with (Ok tt). cbn [bind]. change (seqb (lit "sites") (lit "sites")) with true. cbv iota. unfold check_sites, arg_or. destruct v; try congruence; try reflexivity.
Qed.

(** ** C86: get_dict *)
(** the dictionary [d] of a site: its species with a capital initial, flags and predictors, and
    position [p], velocity [w] and label [direct] *)
Definition shows {A} (s : site A) (p : list (num A)) (w : option (list (num A))) (direct : bool) (d : sdict A) : Prop :=
  sd_specie A d = Some (capitalize (si_specie A s)) /\ sd_position A d = Some p /\ sd_selective A d = Some (si_selective A s) /\
  sd_velocities A d = Some w /\ sd_predictors A d = Some (si_predictors A s) /\ sd_direct A d = Some direct.
(** [d] is [es] with the sites as the dictionaries [ds] *)
Definition dict_shows {A} (es d : pentries A) (ds : list (sdict A)) : Prop :=
  map fst d = map fst es /\ (forall k, k <> lit "sites" -> dget k d = dget k es) /\ pholds d "sites" (PSites A (map (SDict A) ds)).
Definition no_lower_first (c : ascii) : bool := aeqb (upper1 (upper1 c)) (upper1 c).
Lemma upper_twice c : upper1 (upper1 c) = upper1 c.
Proof. assert (no_lower_first c = true) as H by (revert c; refine (forall_ascii _ _); vm_compute; reflexivity). apply Ascii.eqb_eq in H. exact H. Qed.
Lemma lower_twice c : lower1 (lower1 c) = lower1 c.
Proof. assert ((fun c => aeqb (lower1 (lower1 c)) (lower1 c)) c = true) as H by (revert c; refine (forall_ascii _ _); vm_compute; reflexivity). apply Ascii.eqb_eq in H. exact H. Qed.
Lemma capitalize_twice s : capitalize (capitalize s) = capitalize s.
Proof. destruct s as [|c r]; auto. cbn [capitalize]. rewrite upper_twice. f_equal. unfold lower. rewrite map_map. apply map_ext. apply lower_twice. Qed.
Lemma Ok_inj' {T} (a b : T) : Ok a = Ok b -> a = b.
Proof. congruence. Qed.
Section Dict.
Context {A : arith}.
Lemma dict_keys direct cell l d : mapM (fun kv : str * pval A => if seqb (fst kv) (lit "sites") then match snd kv with PSites _ l => let* l' := mapM (dict_site A direct cell) l in Ok (fst kv, PSites A l') | _ => Exn TypeError end else Ok kv) l = Ok d ->
  map fst d = map fst l /\ forall k, k <> lit "sites" -> dget k d = dget k l.
Proof.
  revert d. induction l as [|[k v] l IH]; intros d H; cbn [mapM] in H; [apply Ok_inj' in H; subst; auto|].
  apply bind_ok in H as (kv & E & H). apply bind_ok in H as (r & R & H). apply Ok_inj' in H. subst d. destruct (IH r R) as [F G]. cbn [fst snd] in E.
  destruct (seqb k (lit "sites")) eqn:K.
  - destruct v; try discriminate. apply bind_ok in E as (l' & _ & E). apply Ok_inj' in E. subst kv. cbn [map fst]. split; [congruence|]. intros k' N. cbn [dget fst snd]. apply seqb_eq in K. subst k. rewrite (proj2 (seqb_neq _ _)) by auto. auto.
  - apply Ok_inj' in E. subst kv. cbn [map fst]. split; [congruence|]. intros k' N. cbn [dget fst snd]. rewrite G by auto. auto.
Qed.
Lemma dict_found direct cell l ss ds : NoDup (map fst l) -> dget (lit "sites") l = Some (PSites A ss) -> mapM (dict_site A direct cell) ss = Ok ds ->
  exists d, mapM (fun kv : str * pval A => if seqb (fst kv) (lit "sites") then match snd kv with PSites _ l => let* l' := mapM (dict_site A direct cell) l in Ok (fst kv, PSites A l') | _ => Exn TypeError end else Ok kv) l = Ok d /\ dget (lit "sites") d = Some (PSites A ds).
Proof.
  intros ND D M. induction l as [|[k v] l IH]; [discriminate|]. cbn [map fst] in ND. inversion ND as [|? ? NI ND']; subst. cbn [dget] in D. cbn [mapM fst snd].
  destruct (seqb (lit "sites") k) eqn:K.
  - apply seqb_eq in K. subst k. injection D as ->. rewrite seqb_refl, M. cbn [bind].
    assert (forall l, ~ In (lit "sites") (map fst l) -> mapM (fun kv : str * pval A => if seqb (fst kv) (lit "sites") then match snd kv with PSites _ l => let* l' := mapM (dict_site A direct cell) l in Ok (fst kv, PSites A l') | _ => Exn TypeError end else Ok kv) l = Ok l) as R.
    { clear. induction l as [|[k v] l IH]; intros N; auto. cbn [mapM fst snd]. cbn in N. rewrite (proj2 (seqb_neq k (lit "sites"))) by (intros Z; apply N; auto). cbn [bind]. rewrite IH by (intros Z; apply N; auto). reflexivity. }
    rewrite R by auto. cbn [bind]. eexists. split; [reflexivity|]. cbn [dget]. rewrite seqb_refl. reflexivity.
  - assert (seqb k (lit "sites") = false) as K'. { apply seqb_neq. intros ->. rewrite seqb_refl in K. discriminate. } rewrite K'. cbn [bind].
    destruct (IH ND' D) as (d & -> & G). cbn [bind]. eexists. split; [reflexivity|]. cbn [dget]. rewrite K. auto.
Qed.
End Dict.
(** direct=True (the default): what the sites hold *)
Theorem C86_poscar_dict : forall A es ss, NoDup (map fst es) -> pholds es "sites" (PSites A (map (SSite A) ss)) ->
  exists d ds, get_dict A es true = Ok d /\ dict_shows es d ds /\ Forall2 (fun s => shows s (si_position A s) (si_velocities A s) (si_direct A s)) ss ds.
Proof.
  intros A es ss ND H. assert (exists ds, (forall cell, mapM (dict_site A true cell) (map (SSite A) ss) = Ok (map (SDict A) ds)) /\ Forall2 (fun s => shows s (si_position A s) (si_velocities A s) (si_direct A s)) ss ds) as (ds & M & F).
  { clear. induction ss as [|s ss (ds & M & F)]; [exists []; auto|]. exists (SDictionary A (Some (capitalize (get_specie A s))) (Some (si_position A s)) (Some (si_selective A s)) (Some (si_velocities A s)) (Some (si_predictors A s)) (Some (si_direct A s)) :: ds).
    split; [intros cell; cbn [map mapM dict_site bind]; rewrite M; reflexivity|]. constructor; auto. unfold shows. cbn. unfold get_specie. rewrite capitalize_twice. auto 10. }
  destruct (dict_found true (let* u := pkey A es "unitcell" in unitcell_of A u) es _ _ ND H (M _)) as (d & D & G). exists d, ds. split; [exact D|]. split; auto. destruct (dict_keys _ _ _ _ D) as [K1 K2]. split; auto.
Qed.
(** direct=False: every position and velocity times the lattice, marked as cartesian *)
Lemma dict_cartesian A es ss m : NoDup (map fst es) -> pholds es "sites" (PSites A (map (SSite A) ss)) -> pholds es "unitcell" (PMat A m) ->
  Forall (fun s => length (si_position A s) = length m /\ forall v, si_velocities A s = Some v -> length v = length m) ss ->
  exists d ds, get_dict A es false = Ok d /\ dict_shows es d ds /\ Forall2 (fun s => shows s (ndot A (si_position A s) m) (option_map (fun v => ndot A v m) (si_velocities A s)) false) ss ds.
Proof.
  intros ND H U L. assert (exists ds, mapM (dict_site A false (Ok m)) (map (SSite A) ss) = Ok (map (SDict A) ds) /\ Forall2 (fun s => shows s (ndot A (si_position A s) m) (option_map (fun v => ndot A v m) (si_velocities A s)) false) ss ds) as (ds & M & F).
  { clear -L. induction L as [|s ss [LP LV] L (ds & M & F)]; [exists []; auto|]. exists (SDictionary A (Some (capitalize (get_specie A s))) (Some (ndot A (si_position A s) m)) (Some (si_selective A s)) (Some (option_map (fun v => ndot A v m) (si_velocities A s))) (Some (si_predictors A s)) (Some false) :: ds).
    split; [cbn [map mapM dict_site bind]; unfold to_cart, dot at 1; rewrite LP, Nat.eqb_refl; cbn [bind]|].
    - destruct (si_velocities A s) as [v|] eqn:V.
      + unfold dot. rewrite (LV v eq_refl), Nat.eqb_refl. cbn [bind]. rewrite M. cbn [bind map]. reflexivity.
      + cbn [bind]. rewrite M. cbn [bind map]. reflexivity.
    - constructor; auto. unfold shows. cbn. unfold get_specie. rewrite capitalize_twice. auto 10. }
  assert ((let* u := pkey A es "unitcell" in unitcell_of A u) = Ok m) as C by (unfold pkey; unfold pholds in U; rewrite U; reflexivity).
  rewrite <- C in M. destruct (dict_found false _ es _ _ ND H M) as (d & D & G). exists d, ds. split; [exact D|]. split; auto. destruct (dict_keys _ _ _ _ D) as [K1 K2]. split; auto.
Qed.

(** what a file was read into *)
Lemma read_shape A ch txt es : pread A ch txt = Ok es ->
  NoDup (map fst es) /\ exists ss, pholds es "sites" (PSites A (map (SSite A) ss)) /\ Forall (fun s => si_direct A s = true) ss.
Proof.
  intros R. destruct (pread_reading A _ _ _ R) as (l0 & l1 & l2 & l3 & l4 & sc & r2 & r3 & r4 & spec' & atoms' & sel & dir & fst' & raw & hasv & vd & pred & vel & pre & ss & RD & B & HS & HU & CO).
  split.
  - rewrite (rd_es _ _ _ _ _ _ _ _ _ _ _ _ _ _ _ _ _ _ _ _ _ _ _ RD). cbn [map fst]. repeat constructor; cbn; intuition discriminate.
  - exists ss. split; auto. pose proof (build_direct A raw vel pre) as D. rewrite B in D. clear -D. induction ss as [|s ss IH]; auto. inversion D as [|? ? (s' & E & H) D']; subst. injection E as <-. constructor; auto.
Qed.
(** For every POSCAR read: get_dict() shows every key unchanged and every site, in order, as
    a dictionary of its species (capital initial), direct position, flags, velocity and
    predictors, marked as direct. *)
Theorem C86_poscar_dict_read : forall A ch txt es, pread A ch txt = Ok es ->
  exists ss d ds, pholds es "sites" (PSites A (map (SSite A) ss)) /\ get_dict A es true = Ok d /\ dict_shows es d ds /\
    Forall2 (fun s => shows s (si_position A s) (si_velocities A s) true) ss ds.
Proof.
  intros A ch txt es R. destruct (read_shape A _ _ _ R) as (ND & ss & H & D). destruct (C86_poscar_dict A es ss ND H) as (d & ds & G & S & F).
  exists ss, d, ds. split; auto. split; auto. split; auto. clear -F D. induction F as [|s x ss ds S F IH]; inversion D; subst; constructor; auto. congruence.
Qed.

(** ** Cartesian dictionaries, exact arithmetic *)
(** the product of a row vector and a lattice *)
Definition product (v : list Q) (cell : list (list Q)) (w : list Q) : Prop :=
  exists x y z a b c d e f g h k, v = [x; y; z] /\ cell = [[a; b; c]; [d; e; f]; [g; h; k]] /\
    veq w [x * a + y * d + z * g; x * b + y * e + z * h; x * c + y * f + z * k]%Q.
Lemma product_dot v cell : length v = 3 -> square3 exact cell -> product v cell (qdot v cell).
Proof.
  intros L S. destruct (square3_shape exact cell S) as (a & b & c & d & e & f & g & h & k & ->). destruct v as [|x [|y [|z []]]]; try discriminate.
  exists x, y, z, a, b, c, d, e, f, g, h, k. split; auto. split; auto. cbn. repeat constructor; ring.
Qed.
Lemma to_direct_len v m d : to_direct exact v m = Ok d -> length d = 3.
Proof.
  unfold to_direct, inv. destruct (square exact _); [|discriminate]. intros E. apply bind_ok in E as [i [Em E]]. apply of_option_ok in Em.
  cbn [exact ninv] in Em. destruct (qinv_shape _ _ Em) as (a & b & c & e & f & g & h & k & j & ->). unfold dot in E. destruct (_ =? _) eqn:L in E; [|discriminate]. apply Ok_inj' in E. subst d.
  apply Nat.eqb_eq in L. cbn [length] in L. destruct v as [|x [|y [|z []]]]; try discriminate. reflexivity.
Qed.
Lemma read_lengths ch txt es : pread exact ch txt = Ok es ->
  exists ss cell, pholds es "sites" (PSites exact (map (SSite exact) ss)) /\ pholds es "unitcell" (PMat exact cell) /\ square3 exact cell /\
    Forall (fun s => length (si_position exact s) = 3 /\ forall v, si_velocities exact s = Some v -> length v = 3) ss.
Proof.
  intros R. destruct (pread_reading exact _ _ _ R) as (l0 & l1 & l2 & l3 & l4 & sc & r2 & r3 & r4 & spec' & atoms' & sel & dir & fst' & raw & hasv & vd & pred & vel & pre & ss & RD & B & HS & HU & CO).
  exists ss, (map (map (nmul exact sc)) [r2; r3; r4]). split; auto. split; auto. split; [exact CO|].
  pose proof (rd_mode _ _ _ _ _ _ _ _ _ _ _ _ _ _ _ _ _ _ _ _ _ _ _ RD) as LY. destruct (read_positions exact ch txt es _ _ _ R LY) as (ss' & sc' & cell' & HS' & _ & _ & _ & _ & P).
  assert (ss' = ss) as ->. { unfold pholds in *. rewrite HS in HS'. injection HS' as E. clear -E. revert ss' E. induction ss as [|s ss IH]; intros [|s' ss'] E; try discriminate; auto. injection E as -> E. f_equal. auto. }
  apply Forall_forall. intros s HI. apply In_nth_error in HI as [i Hi]. split.
  - destruct (P i s Hi) as (l & x & y & z & _ & _ & E & _). destruct dir; [rewrite E; reflexivity|]. eapply to_direct_len; eauto.
  - intros v V. destruct (built_site_nth exact _ _ _ _ _ _ B Hi) as (r & Hr & ->). cbn [Site si_velocities] in V.
    pose proof (rd_vel _ _ _ _ _ _ _ _ _ _ _ _ _ _ _ _ _ _ _ _ _ _ _ RD) as RV. destruct hasv; [|destruct RV as [-> _]; discriminate].
    destruct RV as (w & -> & RV & _). cbn [opt_nth] in V. apply mapM_ok_Forall2 in RV. assert (exists k, (let* l := py_nth (plines ch txt) k in let* v := num3 exact l (fun x => x) in if vd then Ok v else to_direct exact v (map (map (nmul exact sc)) [r2; r3; r4])) = Ok v) as [k K].
    { clear -RV V. revert i V. induction RV as [|a b la lb Q F IH]; intros [|i] V; try discriminate; [|eapply IH; eauto]. cbn in V. injection V as <-. exists a. exact Q. }
    apply bind_ok in K as (l & _ & K). apply bind_ok in K as (u & U & K). apply num3_ok in U as (x & y & z & _ & ->). destruct vd; [apply Ok_inj' in K; subst; reflexivity|]. eapply to_direct_len; eauto.
Qed.
(** For every POSCAR read: get_dict(direct=False) shows the product of each stored direct
    position (and velocity) with the stored lattice, marked as cartesian. *)
Theorem C86_poscar_dict_cartesian : forall ch txt es, pread exact ch txt = Ok es ->
  exists ss cell d ds, pholds es "sites" (PSites exact (map (SSite exact) ss)) /\ pholds es "unitcell" (PMat exact cell) /\
    get_dict exact es false = Ok d /\ dict_shows es d ds /\
    Forall2 (fun s x => exists p w, product (si_position exact s) cell p /\
      match si_velocities exact s, w with None, None => True | Some v, Some w => product v cell w | _, _ => False end /\ shows s p w false x) ss ds.
Proof.
  intros ch txt es R. destruct (read_shape exact _ _ _ R) as (ND & _). destruct (read_lengths _ _ _ R) as (ss & cell & HS & HU & SQ & L).
  destruct (dict_cartesian exact es ss cell ND HS HU) as (d & ds & G & S & F).
  { destruct (square3_shape exact cell SQ) as (a & b & c & d & e & f & g & h & k & ->). exact L. }
  exists ss, cell, d, ds. split; auto. split; auto. split; auto. split; auto. clear -F L SQ. induction F as [|s x ss ds S F IH]; inversion L as [|? ? [L1 L2] L']; subst; constructor; auto.
  exists (qdot (si_position exact s) cell), (option_map (fun v => qdot v cell) (si_velocities exact s)). split; [apply product_dot; auto|]. split; [|exact S].
  destruct (si_velocities exact s) as [v|]; [apply product_dot; auto|exact Logic.I].
Qed.
(** For a POSCAR in cartesian coordinates, those products are the numbers of the file times
    the scaling: the coordinates survive the conversion at reading and back. *)
Theorem C86_poscar_dict_cartesian_file : forall ch txt es selective first, pread exact ch txt = Ok es -> layout (plines ch txt) selective false first ->
  exists sc d ds, scaling_at exact (plines ch txt) sc /\ get_dict exact es false = Ok d /\ dict_shows es d ds /\
    forall i x, nth_error ds i = Some x -> exists l a b c p,
      nth_error (plines ch txt) (first + i) = Some l /\ three_numbers exact l a b c /\
      sd_position exact x = Some p /\ veq p [a * sc; b * sc; c * sc]%Q /\ sd_direct exact x = Some false.
Proof.
  intros ch txt es selective first R LY. destruct (read_shape exact _ _ _ R) as (ND & _). destruct (read_lengths _ _ _ R) as (ss & cell & HS & HU & SQ & L).
  destruct (dict_cartesian exact es ss cell ND HS HU) as (d & ds & G & S & F).
  { destruct (square3_shape exact cell SQ) as (a & b & c & d & e & f & g & h & k & ->). exact L. }
  destruct (C28_cartesian_converted _ _ _ _ _ R LY) as (ss' & sc & L' & HS' & SC & HU' & P). unfold pholds in HU', HU. rewrite HU in HU'. injection HU' as <-.
  assert (ss' = ss) as ->. { unfold pholds in *. rewrite HS in HS'. injection HS' as E. clear -E. revert ss' E. induction ss as [|s ss IH]; intros [|s' ss'] E; try discriminate; auto. injection E as -> E. f_equal. auto. }
  exists sc, d, ds. split; auto. split; auto. split; auto. intros i x Hx.
  assert (exists s, nth_error ss i = Some s /\ shows s (ndot exact (si_position exact s) cell) (option_map (fun v => ndot exact v cell) (si_velocities exact s)) false x) as (s & Hs & SH).
  { clear -F Hx. revert i Hx. induction F as [|a b la lb Q F IH]; intros [|i] Hx; try discriminate; [|eapply IH; eauto]. injection Hx as <-. exists a. auto. }
  destruct (P i s Hs) as (l & a & b & c & Hl & T & V). exists l, a, b, c, (qdot (si_position exact s) cell). destruct SH as (_ & SH & _ & _ & _ & SD). auto 10.
Qed.
(** ** What get_dict does not do *)
(** Its result cannot be given back: a POSCAR object is made from the dictionary, but it
    cannot be written. *)
Theorem C86_poscar_dict_back_refuted : forall A ch txt es d es' prec conserve wd,
  pread A ch txt = Ok es -> ~ pholds es "sites" (PSites A []) -> get_dict A es true = Ok d -> poscar_of_dict A d = Ok es' ->
  get_string A prec conserve wd es' = Exn AttributeError.
Proof.
  intros A ch txt es d es' prec conserve wd R NE G H. destruct (C86_poscar_dict_read A _ _ _ R) as (ss & d' & ds & HS & G' & (_ & _ & HD) & F). rewrite G in G'. apply Ok_inj' in G'. subst d'.
  eapply C33_dict_sites_refuted; eauto. inversion F; subst; [exfalso; apply NE; exact HS|]. apply Exists_cons_hd. eexists. reflexivity.
Qed.
Lemma skipn_S {T} n (l : list T) u v : skipn n l = u :: v -> v = skipn (S n) l.
Proof. revert l. induction n; intros [|x l] H; try discriminate; [cbn in *; congruence|]. apply (IHn l). exact H. Qed.
(** A site in cartesian coordinates that was put in by modify is multiplied by the lattice
    once more. *)
Theorem C86_poscar_dict_cartesian_site_refuted : forall ch txt es n i s es' l,
  pread exact ch txt = Ok es -> pholds es "sites" (PSites exact l) -> designates n (length l) i ->
  si_direct exact s = false -> length (si_position exact s) = 3 -> si_velocities exact s = None ->
  modify exact es (lit "sites") (PSite exact s) (Some (IInt n)) = Ok es' ->
  exists cell d ds x p, pholds es' "unitcell" (PMat exact cell) /\ get_dict exact es' false = Ok d /\ dict_shows es' d ds /\
    nth_error ds i = Some x /\ sd_position exact x = Some p /\ product (si_position exact s) cell p /\ sd_direct exact x = Some false.
Proof.
  intros ch txt es n i s es' l R HL DS SD LP NV M. destruct (read_lengths _ _ _ R) as (ss & cell & HS & HU & SQ & L). pose proof HL as HL2. unfold pholds in HL2, HS. rewrite HS in HL2. injection HL2 as <-.
  destruct (C35_modify_site exact es _ (lit "sites") s n HL) as (MS & _); [cbn; auto|]. destruct (MS i DS) as (es2 & M2 & HS2 & HO). rewrite M in M2. apply Ok_inj' in M2. subst es2.
  assert (NoDup (map fst es')) as ND.
  { assert (map fst es' = map fst es) as ->; [|apply (proj1 (read_shape exact _ _ _ R))].
    unfold modify in M. change (check_allowed (lit "sites")) with (Ok tt) in M. cbn [bind] in M. repeat (apply bind_ok in M as (? & ? & M)). destruct x1; try discriminate. destruct (list_index _ _); try discriminate. apply Ok_inj' in M. subst es'.
    assert (dget (lit "sites") es <> None) as K by (rewrite HS; discriminate). clear -K. induction es as [|[k v] es IH]; [exfalso; apply K; reflexivity|]. cbn [dget dset map fst] in *. destruct (seqb (lit "sites") k) eqn:E; cbn [map fst]; [apply seqb_eq in E; congruence|]. f_equal. auto. }
  pose proof (HO (lit "unitcell") ltac:(discriminate)) as HU'. unfold pholds in HU. rewrite HU in HU'. rewrite map_length in DS.
  set (ss' := firstn i ss ++ s :: skipn (S i) ss). assert (pholds es' "sites" (PSites exact (map (SSite exact) ss'))) as HS'.
  { unfold pholds. rewrite HS2. unfold ss'. rewrite map_app. cbn [map]. rewrite firstn_map, skipn_map. reflexivity. }
  destruct (dict_cartesian exact es' ss' cell ND HS' HU') as (d & ds & G & SH & F).
  { destruct (square3_shape exact cell SQ) as (a & b & c & d & e & f & g & h & k & ->). cbn [length]. unfold ss'. apply Forall_app. rewrite <- (firstn_skipn i ss) in L. apply Forall_app in L as [La Lb]. split; [auto|]. constructor; [|destruct (skipn i ss) as [|u v] eqn:E; [rewrite (skipn_all2 ss) by (apply (f_equal (@length _)) in E; rewrite skipn_length in E; cbn in E; lia); auto|rewrite <- (skipn_S _ _ _ _ E); inversion Lb; auto]]. split; auto. intros v V. congruence. }
  assert (nth_error ss' i = Some s) as N. { unfold ss'. destruct DS as [DS _]. rewrite nth_error_app2 by (rewrite firstn_length; lia). rewrite firstn_length, Nat.min_l by lia. rewrite Nat.sub_diag. reflexivity. }
  assert (exists x, nth_error ds i = Some x /\ shows s (ndot exact (si_position exact s) cell) (option_map (fun v => ndot exact v cell) (si_velocities exact s)) false x) as (x & Hx & (_ & X1 & _ & _ & _ & X2)).
  { clearbody ss'. clear -F N. revert i N. induction F as [|a b la lb Q F IH]; intros [|i] N; try discriminate; [|cbn; eapply IH; eauto]. cbn in N. injection N as <-. exists b. auto. }
  exists cell, d, ds, x, (qdot (si_position exact s) cell). split; auto. split; auto. split; auto. split; auto. split; [exact X1|]. split; [apply product_dot; auto|auto].
Qed.

(** ** Non-vacuity *)
Definition shown_positions (r : res (pentries exact)) : list (option (list Q) * option bool) :=
  match r with Ok d => match dget (lit "sites") d with Some (PSites _ l) => map (fun v => match v with SDict _ x => (option_map (map Qred) (sd_position exact x), sd_direct exact x) | _ => (None, None) end) l | _ => [] end | Exn _ => [] end.
Example C86_case : layout (plines FromFile sample) true false 9 /\ reads (pread exact FromFile sample) = true /\
  shown_positions (let* es := pread exact FromFile sample in get_dict exact es false) =
    [(Some [0; 0; 0], Some false); (Some [1; 1; 1], Some false); (Some [1 # 2; 2; 3 # 2], Some false)]%Q /\
  shown_positions (let* es := pread exact FromFile direct_sample in get_dict exact es true) =
    [(Some [0; 0; 0], Some true); (Some [1 # 2; 1 # 2; 1 # 2], Some true); (Some [1 # 4; 1; 3 # 4], Some true)]%Q.
Proof.
  split; [apply read_mode_ok; vm_compute; reflexivity|]. split; [vm_compute; reflexivity|]. split; vm_compute; reflexivity.
Qed.
