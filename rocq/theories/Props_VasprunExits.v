(** Property C80: exit codes of the constructor of Vasprun, and what each of them says of the
    document. *)
From Coq Require Import Ascii String List NArith ZArith Bool Lia.
From Verif Require Import PyBase PyStrLemmas PyNum UtilsModel LineModel KpointsCodes OutcarModel DoscarProofs StreamConfig ChgcarModel ChgcarSpec ChgcarProofs VasprunTypes VasprunXml VasprunModel VasprunEvents VasprunSpec VasprunTables VasprunTree VasprunSteps VasprunEnergies VasprunAccess Props_Vasprun Props_VasprunSample Props_VasprunData.
Import ListNotations.
Local Open Scope list_scope.

(** ** What the codes mean *)
(** a parameter is not set: there is no such element, or the first one is empty *)
Definition unset (x : xml) (path : list pstep) : Prop := match findall_deep path x with [] => True | e :: _ => text e = None end.
Definition ispin_path : list pstep := [Tag "parameters"; TagAt "separator" "name" "electronic"; TagAt "separator" "name" "electronic spin"; TagAt "i" "name" "ISPIN"].
Definition nbands_path : list pstep := [Tag "parameters"; TagAt "separator" "name" "electronic"; TagAt "i" "name" "NBANDS"].
Definition atoms_path : list pstep := [Tag "atominfo"; TagAt "array" "name" "atoms"; Tag "set"; Tag "rc"; Tag "c"].
Definition projected_path (n : string) : list pstep := [Tag "calculation"; Tag "projected"; Tag "array"; Tag "set"; TagAt "set" "comment" n; Tag "set"; Tag "set"; Tag "r"].
Definition bands_path (pre : list pstep) (n : string) : list pstep := Tag "calculation" :: pre ++ [Tag "array"; Tag "set"; TagAt "set" "comment" n; Tag "set"; Tag "r"].
Definition kpoints_path : list pstep := [Tag "kpoints"; TagAt "varray" "name" "kpointlist"; Tag "v"].
Definition specific_path (t : string) : list pstep := [Tag "calculation"; Tag t; Tag "kpoints"; TagAt "varray" "name" "kpointlist"; Tag "v"].
(** the three kinds of bands: where the rows are, and how many k-points there are *)
Inductive bands_of (x : xml) : list pstep -> nat -> Prop :=
| BandsRegular : bands_of x [Tag "eigenvalues"] (length (findall_child kpoints_path x))
| BandsSpecific : bands_of x [Tag "eigenvalues"; Tag "eigenvalues"] (length (findall_deep (specific_path "eigenvalues") x))
| BandsVelocities : bands_of x [Tag "eigenvelocities"; Tag "eigenvalues"] (length (findall_deep (specific_path "eigenvelocities") x)).
Definition nbands_says (x : xml) (nb : Z) : Prop := exists e rest t, findall_deep nbands_path x = e :: rest /\ text e = Some t /\ parse_int t = Some nb.
Fixpoint alternate {A} (l : list A) : list A := match l with a :: _ :: r => a :: alternate r | _ => l end.
(** the text of an element that has to hold exactly one number does not *)
Definition not_one_number (e : xml) : Prop := exists t, text e = Some t /\ forall v, ~ holds e [v].
(** the elements that have to hold one number: weights, energies of the electronic steps, and
    bands with one column *)
Definition weights_path : list pstep := [Tag "kpoints"; TagAt "varray" "name" "weights"; Tag "v"].
Inductive one_number_in (x : xml) : xml -> Prop :=
| OneWeight e : In e (findall_child weights_path x) -> one_number_in x e
| OneSpecific t e : In t ["eigenvalues"; "eigenvelocities"]%string -> In e (findall_deep (Tag "calculation" :: Tag t :: weights_path) x) -> one_number_in x e
| OneEnergy c key e : In c (findall_deep [Tag "calculation"] x) -> In key ["e_0_energy"; "e_fr_energy"; "e_wo_entrp"]%string ->
    In e (findall_deep [Tag "scstep"; Tag "energy"; TagAt "i" "name" key] c) -> one_number_in x e
| OneColumn pre k n e e0 rest t : bands_of x pre k -> In n ["spin 1"; "spin 2"]%string -> In e (findall_deep (bands_path pre n) x) ->
    findall_deep (bands_path pre "spin 1") x = e0 :: rest -> text e0 = Some t -> length (split_ws t) <= 1 -> one_number_in x e.
(** rows of a spin that is there *)
Definition spin_there (x : xml) (path : string -> list pstep) (n : string) (s1 s2 : string) : Prop := (n = s1 \/ n = s2) /\ findall_deep (path n) x <> [].
Definition some_bands (x : xml) : Prop := (exists pre k n, bands_of x pre k /\ spin_there x (bands_path pre) n "spin 1" "spin 2") \/ (exists n, spin_there x projected_path n "spin1" "spin2").
Inductive reason (x : xml) : Z -> Prop :=
| NoIspin : unset x ispin_path -> some_bands x -> reason x 502
| NoNbands : unset x nbands_path -> some_bands x -> reason x 503
| NoSpecies n : findall_deep atoms_path x = [] -> spin_there x projected_path n "spin1" "spin2" -> reason x 503
| NoKpoints n : findall_child kpoints_path x = [] -> spin_there x projected_path n "spin1" "spin2" -> reason x 504
| MismatchBands pre n k nb : bands_of x pre k -> nbands_says x nb -> spin_there x (bands_path pre) n "spin 1" "spin 2" -> Z.of_nat (length (findall_deep (bands_path pre n) x)) <> (nb * Z.of_nat k)%Z -> reason x 505
| MismatchProjected n nb : nbands_says x nb -> spin_there x projected_path n "spin1" "spin2" ->
    Z.of_nat (length (findall_deep (projected_path n) x)) <> (nb * Z.of_nat (length (findall_child kpoints_path x)) * Z.of_nat (length (alternate (findall_deep atoms_path x))))%Z -> reason x 505
| UnknownElement e t w rest : In e (findall_deep atoms_path x) -> text e = Some t -> split_ws t = w :: rest -> (forall n, ~ In (string_of_list_ascii (lower w), n) elements) -> reason x 506
| Overflow e t : In e (descendants x) -> text e = Some t -> (exists a b, t = a ++ lit "****" ++ b) -> reason x 509
| NotANumber e : one_number_in x e -> not_one_number e -> reason x 509.

(** ** Proof *)
Definition exits (P : Z -> Prop) {A} (r : res A) : Prop := forall c, r = Exn (SysExit c) -> P c.
Section Exits.
Variable P : Z -> Prop.
Lemma exits_ok {A} (a : A) : exits P (Ok a). Proof. intros c H. discriminate. Qed.
Lemma exits_exn {A} e : (forall c, e <> SysExit c) -> @exits P A (Exn e).
Proof. intros H c E. inversion E. subst. exfalso. eapply H. reflexivity. Qed.
Lemma exits_exit {A} c : P c -> @exits P A (Exn (SysExit c)).
Proof. intros H c' E. inversion E. subst. auto. Qed.
Lemma exits_bind {A B} (r : res A) (f : A -> res B) : exits P r -> (forall a, r = Ok a -> exits P (f a)) -> exits P (bind r f).
Proof. intros H K. destruct r; cbn [bind]; [apply K; auto|]. intros c E. apply H. inversion E. auto. Qed.
Lemma exits_mapM {A B} (f : A -> res B) l : (forall a, In a l -> exits P (f a)) -> exits P (mapM f l).
Proof.
  induction l as [|a l IH]; cbn [mapM]; intros H; [apply exits_ok|]. apply exits_bind; [apply H; left; auto|]. intros b _. apply exits_bind; [apply IH; intros; apply H; right; auto|]. intros bs _. apply exits_ok.
Qed.
Lemma exits_option {A} e (o : option A) : (o = None -> @exits P A (Exn e)) -> exits P (of_option e o).
Proof. destruct o; cbn; auto. intros _. apply exits_ok. Qed.
Lemma exits_opt_map {A B} (f : A -> res B) o : (forall a, o = Some a -> exits P (f a)) -> exits P (opt_map_res f o).
Proof. destruct o as [a|]; cbn; intros H; [|apply exits_ok]. apply exits_bind; auto. intros b _. apply exits_ok. Qed.
Lemma exits_foldM {A S} (f : S -> A -> res S) l s : (forall s a, exits P (f s a)) -> exits P (foldM f l s).
Proof. intros H. revert s. induction l as [|a l IH]; intros s; cbn [foldM]; [apply exits_ok|]. apply exits_bind; auto. Qed.
End Exits.
Ltac ex_exn := apply exits_exn; intros ? ?; discriminate.
Ltac ex1 := first [ apply exits_ok | ex_exn | apply exits_bind; [|intros ? ?] | apply exits_opt_map; intros ? ? | apply exits_option; intros ? ].
Lemma ex_numbers P t : exits P (numbers t).
Proof. unfold numbers. destruct t; [|ex_exn]. unfold fromstring. destruct existsb; [ex_exn|apply exits_ok]. Qed.
Lemma ex_convert2D P dim es : exits P (convert2D dim es).
Proof. apply exits_mapM. intros e _. apply exits_bind; [apply ex_numbers|]. intros; apply exits_ok. Qed.
Lemma ex_split P {A} n (l : list A) : exits P (split_even n l).
Proof. unfold split_even. destruct n; [ex_exn|]. destruct Nat.eqb; [apply exits_ok|ex_exn]. Qed.
Lemma ex_split1 P {A} n (m : list (list A)) : exits P (split_axis1 n m).
Proof. unfold split_axis1. ex1; [|apply exits_ok]. apply exits_mapM. intros. apply ex_split. Qed.
Lemma ex_partial P n es : exits P (partial_dos n es).
Proof. unfold partial_dos. ex1; [apply ex_convert2D|apply ex_split]. Qed.
Lemma ex_dos P t1 t2 p1 p2 f n : exits P (extract_dos t1 t2 p1 p2 f n).
Proof.
  unfold extract_dos. repeat first [apply ex_convert2D | apply ex_partial | ex1]. destruct (entries_of t2); repeat first [apply ex_convert2D | apply ex_partial | ex1].
Qed.
Lemma ex_int P t : exits P (convert_array_i t).
Proof. unfold convert_array_i. destruct t; [|ex_exn]. destruct existsb; [ex_exn|]. apply exits_mapM. intros w _. unfold small_int. destruct parse_int; [|ex_exn]. destruct andb; [apply exits_ok|ex_exn]. Qed.
Lemma ex_olen P {A} (o : option (list A)) : exits P (olen o).
Proof. destruct o; [apply exits_ok|ex_exn]. Qed.
(** one number per element *)
Lemma not_one (P : Z -> Prop) es : (forall e, In e es -> not_one_number e -> P 509%Z) -> exits P (convert1D es).
Proof.
  intros H. apply exits_mapM. intros e I. destruct (text e) as [t|] eqn:T; [|cbn; ex_exn]. apply exits_bind; [apply ex_numbers|]. intros xs N.
  assert (forall v, xs <> [v] -> True) as _ by auto. destruct xs as [|v [|w xs]]; [|apply exits_ok|]; apply exits_exit; apply (H e I); exists t; (split; [auto|]); intros v' Hv; apply numbers_holds in Hv; rewrite T, N in Hv; discriminate.
Qed.
Lemma ex_convert_f (P : Z -> Prop) t : (forall s, t = Some s -> (exists a b, s = a ++ stars ++ b) -> P 509%Z) -> exits P (convert_f t).
Proof.
  intros H. unfold convert_f. destruct t as [s|]; [|apply exits_ok]. destruct (substrb stars s) eqn:E.
  - apply exits_exit. apply (H s eq_refl). apply substrb_spec in E. auto.
  - ex1; [|apply exits_ok]. unfold to_float. ex1. ex_exn.
Qed.
Lemma ex_convert_i (P : Z -> Prop) t : (forall s, t = Some s -> (exists a b, s = a ++ stars ++ b) -> P 509%Z) -> exits P (convert_i t).
Proof.
  intros H. unfold convert_i. destruct t as [s|]; [|apply exits_ok]. destruct (substrb stars s) eqn:E.
  - apply exits_exit. apply (H s eq_refl). apply substrb_spec in E. auto.
  - ex1; [|apply exits_ok]. unfold to_int. ex1. ex_exn.
Qed.
(** paths stay inside the document *)
Lemma kids_descendants e k : In k (kids e) -> In k (descendants e) /\ incl (descendants k) (descendants e).
Proof.
  destruct e as [t a x ks]. cbn [kids descendants]. intros I. split; [|intros d D]; apply in_flat_map; exists k; cbn [In]; auto.
Qed.
Fixpoint descendants_trans (x : xml) : forall k, In k (descendants x) -> incl (descendants k) (descendants x).
Proof.
  destruct x as [t a o ks]. intros k. cbn [descendants]. induction ks as [|q ks IH]; cbn [flat_map]; intros I; [destruct I|].
  apply in_app_iff in I as [[<-|I]|I]; intros d D; apply in_app_iff; [left; right; auto|left; right; apply (descendants_trans q _ I); auto|right; apply IH; auto].
Qed.
Lemma children_descendants path : forall es x, (forall e, In e es -> incl (descendants e) (descendants x)) -> forall e, In e (children_at path es) -> In e es \/ In e (descendants x).
Proof.
  induction path as [|s r IH]; intros es x H e I; cbn [children_at] in I; [auto|]. assert (forall k, In k (filter (matches s) (flat_map kids es)) -> In k (descendants x)) as K.
  { intros k K. apply filter_In in K as [K _]. apply in_flat_map in K as (q & Q & K). apply kids_descendants in K as [K _]. apply (H q Q). auto. }
  apply (IH _ x) in I as [J|J]; auto. intros k J. apply K in J. apply descendants_trans; auto.
Qed.
Lemma child_descendants s path x e : In e (findall_child (s :: path) x) -> In e (descendants x).
Proof.
  unfold findall_child. cbn [children_at flat_map]. rewrite app_nil_r. intros I. assert (forall k, In k (filter (matches s) (kids x)) -> In k (descendants x)) as K by (intros k K; apply filter_In in K as [K _]; apply kids_descendants; auto).
  apply (children_descendants path _ x) in I as [I|I]; auto. intros k J. apply descendants_trans; auto.
Qed.
Lemma deep_descendants path x e : In e (findall_deep path x) -> In e (descendants x).
Proof.
  destruct path as [|s path]; [intros []|]. cbn [findall_deep]. intros I. apply (children_descendants path _ x) in I as [I|I]; auto.
  - apply filter_In in I. tauto.
  - intros k J. apply filter_In in J as [J _]. apply descendants_trans; auto.
Qed.
Lemma findall_some path x es : findall path x = Some es -> findall_deep path x = es.
Proof. unfold findall, some_list. destruct findall_deep; congruence. Qed.
Lemma findall_nonempty path x es : findall path x = Some es -> es <> [].
Proof. unfold findall, some_list. destruct findall_deep; congruence. Qed.
Lemma findall_none path x : findall path x = None -> findall_deep path x = [].
Proof. unfold findall, some_list. destruct findall_deep; congruence. Qed.
Lemma some_list_is {A} (l : list A) es : some_list l = Some es -> l = es. Proof. destruct l; cbn; congruence. Qed.
Lemma hd_In {A} (l : list A) a : hd_error l = Some a -> In a l. Proof. destruct l; cbn; [discriminate|]. intros E. inversion E. auto. Qed.
Section Document.
Variable x : xml.
Notation R := (reason x).
Lemma d_overflow e s : In e (descendants x) -> text e = Some s -> (exists a b, s = a ++ stars ++ b) -> R 509.
Proof. intros. eapply Overflow; eauto. Qed.
Lemma d_convert1D es : (forall e, In e es -> one_number_in x e) -> exits R (convert1D es).
Proof. intros H. apply not_one. intros e I N. eapply NotANumber; eauto. Qed.
Lemma d_text_f e : In e (descendants x) -> exits R (convert_f (text e)).
Proof. intros I. apply ex_convert_f. intros s E. eapply d_overflow; eauto. Qed.
Lemma d_param_f path : exits R (param_f x path).
Proof.
  unfold param_f, param, find. destruct (hd_error _) as [e|] eqn:E; cbn [option_map]; [|apply exits_ok]. apply d_text_f. apply hd_In in E. eapply deep_descendants; eauto.
Qed.
Lemma d_param_i path : exits R (param_i x path).
Proof.
  unfold param_i, param, find. destruct (hd_error _) as [e|] eqn:E; cbn [option_map]; [|apply exits_ok]. apply ex_convert_i. intros s T. apply hd_In in E. eapply d_overflow; [eapply deep_descendants; eauto|auto].
Qed.
(** what the values used later say *)
Lemma param_none path : param_i x path = Ok None -> unset x (Tag "parameters" :: path).
Proof.
  unfold param_i, param, find, unset. destruct findall_deep as [|e r]; cbn [hd_error option_map]; auto. unfold convert_i. destruct (text e); auto. destruct substrb; [discriminate|]. intros H. apply bind_ok in H as (z & _ & H). discriminate.
Qed.
Lemma nbands_some nb : fetch_nbands x = Ok (Some nb) -> nbands_says x nb.
Proof.
  unfold fetch_nbands, param_i, param, find, nbands_says, nbands_path, sep, item. destruct findall_deep as [|e r]; cbn [hd_error option_map]; [discriminate|]. unfold convert_i. destruct (text e) as [t|] eqn:T; [|discriminate]. destruct substrb; [discriminate|]. intros H. apply bind_ok in H as (z & Z1 & H). inversion H. subst. unfold to_int in Z1. destruct (parse_int t) eqn:Q; [|discriminate]. cbn in Z1. inversion Z1. subst. eauto 6.
Qed.
Lemma every_alternate {A} (n : nat) : forall l : list A, length l <= n -> every_other l = alternate l.
Proof.
  induction n as [|n IH]; intros [|a [|b l]] L; cbn in L |- *; auto; try lia. rewrite IH; auto. lia.
Qed.
Lemma every_In {A} (n : nat) : forall (l : list A) e, length l <= n -> In e (every_other l) -> In e l.
Proof. induction n as [|n IH]; intros [|b [|c l]] e L I; cbn in L, I |- *; auto; try lia; try tauto. destruct I as [I|I]; auto. right. right. apply IH; auto. lia. Qed.
Lemma species_count sp : fetch_species x = Ok (Some sp) -> length sp = length (alternate (findall_deep atoms_path x)).
Proof.
  unfold fetch_species, findall. fold atoms_path. destruct (findall_deep atoms_path x) as [|a l] eqn:E; [discriminate|]. cbn [some_list opt_map_res]. intros H. apply bind_ok in H as (s & S1 & H). inversion H. subst. apply mapM_ok_Forall2 in S1. apply Forall2_length in S1. rewrite <- S1. rewrite (every_alternate (length (a :: l))) by auto. auto.
Qed.
Lemma kpoints_count kp : fetch_kpoints x = Ok (Some kp) -> length kp = length (findall_child kpoints_path x).
Proof.
  unfold fetch_kpoints, vrr. fold kpoints_path. destruct (findall_child kpoints_path x) as [|a l] eqn:E; [discriminate|]. cbn [some_list opt_map_res]. intros H. apply bind_ok in H as (s & S1 & H). inversion H. subst. apply mapM_ok_Forall2 in S1. apply Forall2_length in S1. auto.
Qed.
Lemma specific_count t kp : specific_kpoints x t = Ok (Some kp) -> length kp = length (findall_deep (specific_path t) x).
Proof.
  unfold specific_kpoints, vrr, findall. fold (specific_path t). destruct (findall_deep (specific_path t) x) as [|a l] eqn:E; [discriminate|]. cbn [some_list opt_map_res]. intros H. apply bind_ok in H as (s & S1 & H). inversion H. subst. apply mapM_ok_Forall2 in S1. apply Forall2_length in S1. auto.
Qed.
Lemma d_species : exits R (fetch_species x).
Proof.
  unfold fetch_species. fold atoms_path. ex1. apply findall_some in H. apply exits_mapM. intros e I. destruct (text e) as [t|] eqn:T; [|ex_exn]. destruct (split_ws t) as [|w r] eqn:W; [ex_exn|]. ex1. apply exits_exit.
  apply UnknownElement with e t w r; auto.
  - rewrite H. apply (every_In (length a)); auto.
  - intros n I2. clear - H0 I2. revert H0 I2. generalize (string_of_list_ascii (lower w)) elements. intros k l. induction l as [|[k' v] l IH]; cbn; [tauto|]. destruct (String.eqb_spec k k') as [->|N]; [discriminate|]. intros E [J|J]; [inversion J; congruence|auto].
Qed.
Lemma d_upfs sp all : exits R (fetch_upfs x sp all).
Proof.
  unfold fetch_upfs. destruct sp as [sp|]; [|apply exits_ok]. destruct all; cbn [negb].
  - destruct findall as [st|]; [|apply exits_ok].
    assert (forall n e, exits R (first_last n e)) as FL by (intros n e; unfold first_last; destruct e; [|apply exits_ok]; ex1; [apply ex_convert2D|]; ex1; [|apply exits_ok]; destruct Nat.ltb; repeat first [apply ex_convert2D | ex1]).
    assert (forall c n e d, exits R (set_step c n e d)) as SS by (intros c n e d; unfold set_step; destruct e; [|apply exits_ok]; ex1; [apply ex_convert2D|apply exits_ok]).
    repeat (ex1; [apply FL|]). ex1; [|]. 2: { destruct a3 as [[[? ?] ?] ?]. apply exits_ok. }
    destruct Nat.ltb; [|apply exits_ok]. apply exits_foldM. intros [[[? ?] ?] ?] c. repeat (ex1; [apply SS|]). apply exits_ok.
  - cbv zeta. repeat (ex1; [ex1; apply ex_convert2D|]). ex1; [|ex1; [|apply exits_ok]]; (match goal with |- exits _ (match ?q with Some _ => _ | None => _ end) => destruct q end; [|apply exits_ok]; repeat first [apply ex_convert2D | ex1]).
Qed.
Lemma d_eigen pre k nb kbb isp k' (s1 : list xml) : bands_of x pre k -> (isp = None -> unset x ispin_path) -> (nb = None -> unset x nbands_path) -> (forall z, nb = Some z -> nbands_says x z) ->
  k' = k -> findall_deep (bands_path pre "spin 1") x = s1 -> s1 <> [] -> exits R (extract_eigenvalues kbb isp nb s1 (findall (bands_path pre "spin 2") x) k').
Proof.
  intros B I1 I2 I3 K F NE. assert (some_bands x) as SB by (left; exists pre, k, "spin 1"%string; split; [auto|split; [auto|rewrite F; auto]]). unfold extract_eigenvalues. destruct isp; [|apply exits_exit, NoIspin; auto]. destruct nb as [nb|]; [|apply exits_exit, NoNbands; auto].
  assert (forall l n, In n ["spin 1"; "spin 2"]%string -> findall_deep (bands_path pre n) x = l -> forall e0 rest t, s1 = e0 :: rest -> text e0 = Some t -> forall w, exits R (eigen_table (length (split_ws t)) w l)) as ET.
  { intros l n N L e0 rest t S1 T w. unfold eigen_table. ex1; [|apply ex_split]. destruct Nat.ltb eqn:LT; [apply ex_convert2D|]. apply Nat.ltb_ge in LT. ex1; [|apply exits_ok]. apply d_convert1D. intros e I. apply (OneColumn x pre k n e e0 rest t); auto; [rewrite L; auto|rewrite F; exact S1]. }
  assert (forall l q, In q ["spin 1"; "spin 2"]%string -> findall_deep (bands_path pre q) x = l -> l <> [] -> wrong_count (length l) nb k' = true -> R 505) as WC.
  { intros l q N L NL W. apply MismatchBands with pre q k nb; auto; [split; [destruct N as [<-|[<-|[]]]; auto|rewrite L; auto]|]. rewrite L, <- K. unfold wrong_count in W. apply negb_true_iff, Z.eqb_neq in W. auto. }
  destruct wrong_count eqn:W; [apply exits_exit; apply (WC s1 "spin 1"%string); cbn; auto|]. destruct s1 as [|e0 rest]; [congruence|]. unfold py_nth. cbn [nth_error of_option bind].
  destruct (text e0) as [t|] eqn:T; cbn [of_option bind]; [|ex_exn]. ex1; [eapply (ET _ "spin 1"%string); cbn; eauto|].
  destruct findall as [s2|] eqn:S2; [|apply exits_ok]. pose proof (findall_nonempty _ _ _ S2) as N2. apply findall_some in S2. destruct (wrong_count (length s2)) eqn:W2; [apply exits_exit; apply (WC s2 "spin 2"%string); cbn; auto|]. ex1; [eapply (ET _ "spin 2"%string); cbn; eauto|apply exits_ok].
Qed.
Lemma d_velocities pre k nb kbb isp k' (s1 : list xml) : bands_of x pre k -> (isp = None -> unset x ispin_path) -> (nb = None -> unset x nbands_path) -> (forall z, nb = Some z -> nbands_says x z) ->
  k' = k -> findall_deep (bands_path pre "spin 1") x = s1 -> s1 <> [] -> exits R (extract_eigenvelocities kbb isp nb s1 (findall (bands_path pre "spin 2") x) k').
Proof.
  intros B I1 I2 I3 K F NE. assert (some_bands x) as SB by (left; exists pre, k, "spin 1"%string; split; [auto|split; [auto|rewrite F; auto]]). unfold extract_eigenvelocities. destruct isp; [|apply exits_exit, NoIspin; auto]. destruct nb as [nb|]; [|apply exits_exit, NoNbands; auto].
  assert (forall l q, In q ["spin 1"; "spin 2"]%string -> findall_deep (bands_path pre q) x = l -> l <> [] -> wrong_count (length l) nb k' = true -> R 505) as WC.
  { intros l q N L NL W. apply MismatchBands with pre q k nb; auto; [split; [destruct N as [<-|[<-|[]]]; auto|rewrite L; auto]|]. rewrite L, <- K. unfold wrong_count in W. apply negb_true_iff, Z.eqb_neq in W. auto. }
  assert (forall l q, In q ["spin 1"; "spin 2"]%string -> findall_deep (bands_path pre q) x = l -> l <> [] -> exits R (if wrong_count (length l) nb k' then Exn (SysExit 505) else let* rows := convert2D 4 l in split_even k' rows)) as T.
  { intros l q N L NL. destruct wrong_count eqn:W; [apply exits_exit; eauto|]. ex1; [apply ex_convert2D|apply ex_split]. }
  ex1; [apply (T s1 "spin 1"%string); cbn; auto|]. destruct findall as [s2|] eqn:S2; [|apply exits_ok]. pose proof (findall_nonempty _ _ _ S2) as N2. apply findall_some in S2. ex1; [apply (T s2 "spin 2"%string); cbn; auto|apply exits_ok].
Qed.
Lemma d_projectors kbb kp isp nb sp s1 : (isp = None -> unset x ispin_path) -> (nb = None -> unset x nbands_path) -> (forall z, nb = Some z -> nbands_says x z) ->
  fetch_kpoints x = Ok kp -> fetch_species x = Ok sp -> findall_deep (projected_path "spin1") x = s1 -> s1 <> [] ->
  exits R (extract_projectors kbb kp isp nb sp s1 (findall (projected_path "spin2") x)).
Proof.
  intros I1 I2 I3 K S1 F NE. assert (spin_there x projected_path "spin1" "spin1" "spin2") as ST by (split; [auto|rewrite F; auto]). assert (some_bands x) as SB by (right; eauto). unfold extract_projectors. destruct kp as [kp|].
  2: { apply exits_exit. apply NoKpoints with "spin1"%string; [|auto]. unfold fetch_kpoints, vrr in K. fold kpoints_path in K. destruct (findall_child kpoints_path x); auto. cbn in K. apply bind_ok in K as (? & _ & K). discriminate. }
  destruct isp; [|apply exits_exit, NoIspin; auto]. destruct nb as [nb|]; [|apply exits_exit, NoNbands; auto]. destruct sp as [sp|].
  2: { apply exits_exit. apply NoSpecies with "spin1"%string; [|auto]. unfold fetch_species, findall in S1. fold atoms_path in S1. destruct (findall_deep atoms_path x); auto. cbn [some_list opt_map_res] in S1. apply bind_ok in S1 as (? & _ & S1). discriminate. }
  apply kpoints_count in K. apply species_count in S1.
  assert (forall l q, In q ["spin1"; "spin2"]%string -> findall_deep (projected_path q) x = l -> l <> [] -> exits R (if negb (Z.of_nat (length l) =? nb * Z.of_nat (length kp) * Z.of_nat (length sp))%Z then Exn (SysExit 505) else
    let* rows := convert2D 9 l in let* per_k := split_even (length kp) rows in split_axis1 (Z.to_nat nb) per_k)) as T.
  { intros l q N L NL. destruct negb eqn:W; [apply exits_exit; apply negb_true_iff, Z.eqb_neq in W; apply MismatchProjected with q nb; auto; [split; [destruct N as [<-|[<-|[]]]; auto|rewrite L; auto]|]; rewrite L, <- K, <- S1; auto|]. ex1; [apply ex_convert2D|]. ex1; [apply ex_split|apply ex_split1]. }
  ex1; [apply (T s1 "spin1"%string); cbn; auto|]. ex1; [|cbv zeta; destruct (findall (projected_path "spin2") x); apply exits_ok]. destruct (findall (projected_path "spin2") x) as [s2|] eqn:S2; [|apply exits_ok]. pose proof (findall_nonempty _ _ _ S2) as N2. apply findall_some in S2. ex1; [apply (T s2 "spin2"%string); cbn; auto|apply exits_ok].
Qed.
Lemma d_step_energy c key : In c (findall_deep [Tag "calculation"] x) -> In key ["e_0_energy"; "e_fr_energy"; "e_wo_entrp"]%string -> exits R (step_energy c key).
Proof.
  intros I KY. unfold step_energy. destruct findall as [es|] eqn:E; [|apply exits_ok]. apply findall_some in E. pose proof (descendants_trans x c (deep_descendants _ _ _ I)) as D. ex1.
  - apply d_convert1D. intros e Q. eapply OneEnergy; eauto. unfold item in E. rewrite E. auto.
  - destruct (findall_child _ c) as [|e r] eqn:F; [apply exits_ok|]. ex1; [|apply exits_ok]. apply d_text_f. apply D. eapply child_descendants. rewrite F. left. auto.
Qed.
Lemma d_totens : exits R (fetch_totens x).
Proof.
  unfold fetch_totens. destruct findall as [cs|] eqn:E; [|apply exits_ok]. apply findall_some in E. assert (forall c, In c cs -> In c (findall_deep [Tag "calculation"] x)) as D by (intros c C; rewrite E; auto). clear E.
  generalize 1. induction cs as [|c cs IH]; intros n; cbn [energies_from]; [apply exits_ok|]. assert (In c (findall_deep [Tag "calculation"] x)) as C by (apply D; left; auto). ex1.
  - unfold step_energies. ex1; [apply d_step_energy; cbn; auto|]. destruct a as [[? ?]|]; [|apply exits_ok]. ex1; [apply d_step_energy; cbn; auto|]. destruct a as [[? ?]|]; [|apply exits_ok]. ex1; [apply d_step_energy; cbn; auto|]. destruct a as [[? ?]|]; apply exits_ok.
  - destruct a; [|apply exits_ok]. ex1; [|apply exits_ok]. apply IH. intros; apply D; right; auto.
Qed.
Lemma d_dos d sp : exits R (dos_parts x d sp).
Proof.
  unfold dos_parts. ex1.
  - unfold find. destruct (hd_error _) as [e|] eqn:E; [|apply exits_ok]. apply d_text_f. apply hd_In in E. eapply deep_descendants; eauto.
  - cbv zeta. destruct findall; [|apply exits_ok]. destruct sp; [|apply exits_ok]. ex1; [apply ex_dos|apply exits_ok].
Qed.
Lemma d_kpointsw : exits R (fetch_kpointsw x).
Proof. unfold fetch_kpointsw. apply exits_opt_map. intros es H. apply some_list_is in H. apply d_convert1D. intros e I. apply OneWeight. unfold vrr in H. unfold weights_path. rewrite H. auto. Qed.
Lemma d_specific_w t : In t ["eigenvalues"; "eigenvelocities"]%string -> exits R (specific_kpointsw x t).
Proof. intros T. unfold specific_kpointsw. apply exits_opt_map. intros es H. apply findall_some in H. apply d_convert1D. intros e I. eapply OneSpecific; [exact T|]. unfold vrr in H. unfold weights_path. rewrite H. auto. Qed.
Lemma olen_ok {A} (o : option (list A)) n : olen o = Ok n -> exists l, o = Some l /\ n = length l. Proof. destruct o; [|discriminate]. intros H. inversion H. eauto. Qed.
Lemma d_parsew kbb all : exits R (parsew x kbb all).
Proof.
  unfold parsew. cbv zeta. ex1; [apply d_param_f|]. ex1; [apply d_param_f|]. ex1; [apply d_param_i|]. apply exits_bind; [apply d_param_i|]. intros isp ISP. apply exits_bind; [apply d_param_i|]. intros nb NB.
  assert (isp = None -> unset x ispin_path) as I1 by (intros ->; apply param_none in ISP; exact ISP). assert (nb = None -> unset x nbands_path) as I2 by (intros ->; apply param_none in NB; exact NB).
  assert (forall z, nb = Some z -> nbands_says x z) as I3 by (intros z ->; apply nbands_some; auto). clear ISP NB.
  ex1; [apply d_param_f|]. ex1; [apply d_param_i|]. ex1; [apply d_param_i|]. apply exits_bind; [apply d_species|]. intros sp SP. ex1; [apply d_upfs|]. apply exits_bind; [unfold fetch_kpoints; ex1; apply ex_convert2D|]. intros kp KP.
  ex1; [apply d_kpointsw|].
  ex1; [unfold fetch_kdiv; ex1; apply ex_int|].
  assert (forall t, exits R (specific_kpoints x t)) as SK by (intros t; unfold specific_kpoints; ex1; apply ex_convert2D).
  assert (forall t, In t ["eigenvalues"; "eigenvelocities"]%string -> exits R (specific_kpointsw x t)) as SW by exact d_specific_w.
  ex1.
  { unfold fetch_eigenvalues, spin_rows. destruct findall as [s1|] eqn:S1; [|apply exits_ok]. pose proof (findall_nonempty _ _ _ S1) as NE. apply findall_some in S1. apply exits_bind; [apply ex_olen|]. intros n0 N0. apply olen_ok in N0 as (kp' & -> & ->). ex1; [|match goal with |- exits _ (match ?q with (_, _) => _ end) => destruct q end; apply exits_ok].
    eapply (d_eigen [Tag "eigenvalues"]); eauto using bands_of; apply kpoints_count; auto. }
  match goal with |- exits _ (match ?q with (_, _) => _ end) => destruct q end. ex1.
  { unfold fetch_eigenvalues_specific, spin_rows. destruct findall as [s1|] eqn:S1; [|apply exits_ok]. pose proof (findall_nonempty _ _ _ S1) as NE. apply findall_some in S1. ex1; [auto|]. ex1; [apply SW; cbn; auto|]. apply exits_bind; [apply ex_olen|]. intros n0 N0. apply olen_ok in N0 as (kp' & -> & ->). ex1; [|match goal with |- exits _ (match ?q with (_, _) => _ end) => destruct q end; apply exits_ok].
    eapply (d_eigen [Tag "eigenvalues"; Tag "eigenvalues"]); eauto using bands_of; apply specific_count; auto. }
  ex1.
  { unfold fetch_eigenvelocities, spin_rows. destruct findall as [s1|] eqn:S1; [|apply exits_ok]. pose proof (findall_nonempty _ _ _ S1) as NE. apply findall_some in S1. ex1; [auto|]. ex1; [apply SW; cbn; auto|]. apply exits_bind; [apply ex_olen|]. intros n0 N0. apply olen_ok in N0 as (kp' & -> & ->). ex1; [|apply exits_ok].
    eapply (d_velocities [Tag "eigenvelocities"; Tag "eigenvalues"]); eauto using bands_of; apply specific_count; auto. }
  ex1; [unfold fetch_dos; ex1; [apply d_dos|]; match goal with |- exits _ (match ?q with _ => _ end) => destruct q end; [|apply exits_ok]; ex1; [apply d_dos|apply exits_ok]|]. match goal with |- exits _ (match ?q with (_, _) => _ end) => destruct q end. ex1; [apply d_totens|].
  ex1; [unfold fetch_diel; cbv zeta; repeat first [apply ex_convert2D | ex1]|].
  ex1. { unfold fetch_projectors, projector_rows. destruct findall as [s1|] eqn:S1; [|apply exits_ok]. ex1; [|apply exits_ok]. eapply d_projectors; eauto; [apply findall_some; exact S1|]. exact (findall_nonempty _ _ _ S1). }
  ex1; [unfold fetch_hessian; destruct findall; [|apply exits_ok]; destruct sp; [|apply exits_ok]; repeat first [apply ex_convert2D | ex1]|].
  ex1; [unfold fetch_dynmat; destruct find; [|apply exits_ok]; destruct sp; [|apply exits_ok]; ex1; [apply ex_numbers|]; destruct find; [|apply exits_ok]; repeat first [apply ex_convert2D | ex1]|].
  ex1; [unfold fetch_born; destruct findall; [|apply exits_ok]; destruct sp; [|apply exits_ok]; repeat first [apply ex_convert2D | apply ex_split | ex1]|]. apply exits_ok.
Qed.
End Document.
(** Every exit of the regular parser names a defect that the document has *)
Theorem C80_vasprun_regular_exits : forall x kbb all c, parsew x kbb all = Exn (SysExit c) -> reason x c.
Proof. intros x kbb all c H. exact (d_parsew x kbb all c H). Qed.

(** ** The event parser and the constructor *)
Definition event_codes : list Z := [500; 501; 502; 503; 504; 505; 506; 509]%Z.
Definition E_ (c : Z) : Prop := In c event_codes.
Definition safe (f : block) : Prop := forall s, exits E_ (f s).
Ltac code := apply exits_exit; unfold E_, event_codes; cbn; tauto.
Lemma v_pass : safe pass. Proof. intros s. apply exits_ok. Qed.
Lemma v_do f : safe (do_ f). Proof. intros s. apply exits_ok. Qed.
Lemma v_seq f g : safe f -> safe g -> safe (seqb_ f g). Proof. intros F G s. unfold seqb_. ex1; [apply F|apply G]. Qed.
Lemma v_when c f : safe f -> safe (when_ c f). Proof. intros F. destruct c; cbn; auto. apply v_pass. Qed.
Lemma v_guard c f : safe f -> safe (guard c f). Proof. intros F s. unfold guard. destruct (c s); [apply F|apply exits_ok]. Qed.
Lemma v_named e n f : safe f -> safe (named e n f). Proof. intros F s. unfold named. destruct attr; [|ex_exn]. destruct String.eqb; [apply F|apply exits_ok]. Qed.
Lemma v_f t : exits E_ (convert_f t). Proof. apply ex_convert_f. intros. unfold E_, event_codes. cbn. tauto. Qed.
Lemma v_i t : exits E_ (convert_i t). Proof. apply ex_convert_i. intros. unfold E_, event_codes. cbn. tauto. Qed.
Lemma v_1D es : exits E_ (convert1D es). Proof. apply not_one. intros. unfold E_, event_codes. cbn. tauto. Qed.
Lemma v_species es : exits E_ (convert_species es).
Proof. apply exits_mapM. intros e _. destruct (text e); [|ex_exn]. destruct (split_ws s); [ex_exn|]. ex1. code. Qed.
Lemma v_atoms s : exits E_ (atoms_of s). Proof. unfold atoms_of. destruct p_species; [apply exits_ok|code]. Qed.
Lemma v_eigen kbb i n s1 s2 k : exits E_ (extract_eigenvalues kbb i n s1 s2 k).
Proof.
  unfold extract_eigenvalues. destruct i; [|code]. destruct n; [|code]. assert (forall a b c, exits E_ (eigen_table a b c)) as T by (intros; unfold eigen_table; ex1; [|apply ex_split]; destruct Nat.ltb; [apply ex_convert2D|]; ex1; [apply v_1D|apply exits_ok]).
  destruct wrong_count; [code|]. ex1; [unfold py_nth; ex1; ex_exn|]. ex1; [ex1; ex_exn|]. ex1; [auto|]. destruct s2; [|apply exits_ok]. destruct wrong_count; [code|]. ex1; [auto|apply exits_ok].
Qed.
Lemma v_velocities kbb i n s1 s2 k : exits E_ (extract_eigenvelocities kbb i n s1 s2 k).
Proof.
  unfold extract_eigenvelocities. destruct i; [|code]. destruct n; [|code]. cbv zeta. apply exits_bind; [destruct (wrong_count _ _ _); [code|]; ex1; [apply ex_convert2D|apply ex_split]|]. intros ? _. destruct s2; [|apply exits_ok]. ex1; [destruct (wrong_count _ _ _); [code|]; ex1; [apply ex_convert2D|apply ex_split]|apply exits_ok].
Qed.
Lemma v_projectors kbb k i n sp s1 s2 : exits E_ (extract_projectors kbb k i n sp s1 s2).
Proof.
  unfold extract_projectors. destruct k as [kp|]; [|code]. destruct i; [|code]. destruct n as [nb|]; [|code]. destruct sp; [|code]. cbv zeta.
  assert (forall (b : bool) l, exits E_ (if b then Exn (SysExit 505) else let* rows := convert2D 9 l in let* per_k := split_even (length kp) rows in split_axis1 (Z.to_nat nb) per_k)) as T by (intros b q; destruct b; [code|]; ex1; [apply ex_convert2D|]; ex1; [apply ex_split|apply ex_split1]).
  ex1; [apply T|]. ex1; [destruct s2; [|apply exits_ok]; ex1; [apply T|apply exits_ok]|]. destruct s2; apply exits_ok.
Qed.
Lemma v_update f : safe (update_totens f). Proof. intros s. unfold update_totens. ex1; [ex1; ex_exn|apply exits_ok]. Qed.
Ltac vb := repeat first
  [ apply v_pass | apply v_do | apply v_update | apply v_seq | apply v_when | apply v_guard | apply v_named
  | apply v_f | apply v_i | apply v_1D | apply v_species | apply v_atoms | apply v_eigen | apply v_velocities | apply v_projectors
  | apply ex_convert2D | apply ex_numbers | apply ex_int | apply ex_split | apply ex_partial | apply ex_olen
  | match goal with |- safe (fun s => _) => intros ? | |- exits _ (match ?q with _ => _ end) => destruct q end | ex1 ].
Section StepSafe.
Variables (kbb st seen : bool) (parent : option (list (string * string))) (e : xml).
Lemma v_flag t f : safe (flag_from st e t f). Proof. unfold flag_from. vb. Qed.
Lemma v_set n f : safe (flag_set st e n f). Proof. unfold flag_set. vb. Qed.
Lemma v_collect f t : safe (collect st e f t). Proof. unfold collect. vb. Qed.
Lemma v_collect2 f t : safe (collect2 st e f t). Proof. unfold collect2. vb. Qed.
Ltac vv := repeat first [apply v_flag | apply v_set | apply v_collect | apply v_collect2 | progress vb].
Lemma v_calculation_end : safe (calculation_end st e).
Proof. unfold calculation_end. apply v_when. intros s. ex1; [apply v_1D|]. ex1; [apply v_1D|]. ex1; [apply v_1D|]. ex1; [apply v_update|apply exits_ok]. Qed.
Lemma v_parameters : safe (parameters_block st seen parent e).
Proof.
  assert (forall f, safe (pf seen e f)) as PF by (intros f s; unfold pf; vb). assert (forall f, safe (pi seen e f)) as PI by (intros f s; unfold pi; vb).
  assert (forall n f, safe f -> safe (param_block st e n f)) as PB by (intros; unfold param_block; vb; auto).
  assert (safe (nelm_block seen parent e)) as NE by (intros s; unfold nelm_block; destruct parent; [|ex_exn]; destruct opt_is; [apply PI|apply exits_ok]).
  unfold parameters_block. repeat apply v_seq; apply PB; auto. apply v_do.
Qed.
Lemma v_dos_block : safe (dos_block st e).
Proof.
  assert (safe dos_total) as T by (intros s; unfold dos_total; vb). assert (safe dos_partial) as Q by (intros s; unfold dos_partial; vb).
  assert (forall g f, safe (dos_end g f)) as D by (intros g f s; unfold dos_end; ex1; [destruct (s_data6 s) as [|? [|? ?]]; [apply exits_ok|apply v_f|code]|]; cbv zeta; ex1; [|apply exits_ok]; destruct part_empty; [apply exits_ok|]; ex1; [ex1; ex_exn|apply exits_ok]).
  unfold dos_block. repeat first [apply v_seq | apply v_when | apply v_guard | apply v_do | apply T | apply Q | apply D].
Qed.
Lemma v_eigen_block : safe (eigen_block kbb st e).
Proof. unfold eigen_block. vv. Qed.
Lemma v_calculation : safe (calculation_block kbb st seen e).
Proof.
  unfold calculation_block. apply v_guard. apply v_seq; [apply v_dos_block|]. apply v_seq; [unfold forces_block; vv|]. apply v_seq; [unfold energy_flags; vv|]. apply v_seq; [apply v_eigen_block|]. apply v_seq; [unfold diel_block; cbv zeta; vv|].
  apply v_seq; [unfold scstep_block, scstep_one; vv|]. apply v_seq; [unfold lattice_block; vv|]. apply v_seq; [vv|]. apply v_seq; [vv|].
  apply v_seq; [unfold energies_block, final_energy, to_float; vv|].
  apply v_seq; [unfold eigen_rows; vv|]. apply v_seq; [unfold eigen_specific_rows, specific_k; vv|]. apply v_seq; [unfold velocity_rows, specific_k; vv|]. apply v_seq; [vv|]. apply v_seq; [unfold projected_block; cbv zeta; vv|]. apply v_seq; [unfold dynmat_block, convert_array_f; vv|]. vv.
Qed.
Lemma v_step : safe (step kbb st seen parent e).
Proof.
  unfold step. do 2 (apply v_seq; [vv|]). apply v_seq; [unfold calculation_start; vv|]. apply v_seq; [apply v_calculation_end|]. apply v_seq; [unfold atoms_block; vv|]. apply v_seq; [unfold kpoints_flag; vv|]. apply v_seq; [vv|]. apply v_seq; [unfold param_block; vv|]. apply v_seq; [apply v_guard, v_parameters|].
  apply v_seq; [apply v_calculation|]. apply v_seq; [vv|]. apply v_seq; [unfold kpoints_block; vv|]. apply v_seq; unfold VasprunEvents.dos_rows; vv.
Qed.
End StepSafe.

(** Whatever the events are, the event parser can only exit with these codes *)
Theorem C80_vasprun_event_exits : forall kbb evs c, parsee kbb evs = Exn (SysExit c) -> In c [500; 501; 502; 503; 504; 505; 506; 509]%Z.
Proof.
  intros kbb evs. change (exits E_ (parsee kbb evs)). unfold parsee. ex1; [|apply exits_ok]. unfold run_events. apply exits_foldM. intros s ev. unfold handle. destruct ev; apply v_step.
Qed.
(** The constructor, whatever lxml does short of an exit: no source is exit code 510, the path ''
    is exit code 16, and only then; otherwise only the codes above.  508 (no size) is never given *)
Theorem C80_vasprun_init_exits : forall tree evs path handler kbb all event, (forall b t c, tree b t <> Exn (SysExit c)) -> (forall t c, evs t <> Exn (SysExit c)) ->
  (path = None /\ handler = None -> xml_init tree evs path handler kbb all event = Exn (SysExit 510)) /\
  (path = Some EmptyPath /\ handler = None -> xml_init tree evs path handler kbb all event = Exn (SysExit 16)) /\
  (forall c, handler <> Some EmptyPath -> xml_init tree evs path handler kbb all event = Exn (SysExit c) ->
     (c = 510%Z /\ path = None /\ handler = None) \/ (c = 16%Z /\ path = Some EmptyPath /\ handler = None) \/ In c [500; 501; 502; 503; 504; 505; 506; 509]%Z).
Proof.
  intros tree evs path handler kbb all event T V. split; [intros [-> ->]; reflexivity|]. split; [intros [-> ->]; reflexivity|].
  intros c NH. unfold xml_init. destruct (match handler with Some h => Some h | None => path end) as [src|] eqn:E; cbn [of_option bind].
  2: { intros H. left. destruct handler; [discriminate|]. destruct path; [discriminate|]. split; [congruence|auto]. }
  assert ({src = EmptyPath} + {src <> EmptyPath}) as [ES|ES] by (destruct src; [left|right|right|right]; congruence).
  { intros H. right. left. rewrite ES in H. cbn [xml_truncated bind] in H. destruct handler as [h|]; [congruence|]. split; [congruence|]. split; [congruence|auto]. }
  intros H. right. right. revert H. change (In c [500; 501; 502; 503; 504; 505; 506; 509]%Z) with (E_ c). revert c. fold (exits E_ (let* truncated := xml_truncated src in let* p := match choose (N.of_nat (length (content src))) truncated event with Regular recover => let* x := tree recover (content src) in parsew x kbb all | Events => let* evs := evs (content src) in parsee kbb evs end in Ok (XObject truncated p))).
  ex1. { unfold xml_truncated. destruct src as [|[t|]|t|t]; try congruence; try ex_exn; try apply exits_ok. destruct Nat.ltb; [ex_exn|apply exits_ok]. }
  ex1; [|apply exits_ok]. destruct choose.
  - ex1; [intros c Q; exfalso; eapply T; eauto|]. intros c Q. apply C80_vasprun_regular_exits in Q. unfold E_, event_codes. destruct Q; cbn; tauto.
  - ex1; [intros c Q; exfalso; eapply V; eauto|]. intros c Q. apply C80_vasprun_event_exits in Q. exact Q.
Qed.
(** A run without species: 503 (the code for NBANDS) with projected bands; 501 only from the event parser *)
Theorem C80_vasprun_species_code_refuted : forall x kbb all, parsew x kbb all <> Exn (SysExit 501).
Proof. intros x kbb all H. apply C80_vasprun_regular_exits in H. inversion H. Qed.
(** Every code occurs *)
Local Open Scope string_scope.
Local Open Scope list_scope.
Definition broken (pars kpts ats calc : list xml) : xml := box "modeling" (pars ++ kpts ++ ats ++ [box "calculation" calc]).
Definition set_params (l : list xml) : list xml := [box "parameters" [named_ "separator" "electronic" l]].
Definition spin_par : xml := named_ "separator" "electronic spin" [i_ "ISPIN" " 1"].
Definition one_kpoint : list xml := [box "kpoints" [named_ "varray" "kpointlist" (vs [" 0.0 0.0 0.0 "])]].
Definition one_band : list xml := [box "eigenvalues" [box "array" [box "set" [comment_ "set" "spin 1" [comment_ "set" "kpoint 1" (rs [" 1.0 0.5 "])]]]]].
Definition one_projection : list xml := [box "projected" [box "array" [box "set" [comment_ "set" "spin1" [box "set" [box "set" (rs [" 1 2 3 4 5 6 7 8 9 "])]]]]]].
Definition atoms_are (s : string) : list xml := [box "atominfo" [named_ "array" "atoms" [box "set" [box "rc" [leaf "c" s; leaf "c" " 1"]]]]].
Example c80_codes :
  parsew (broken (set_params [i_ "NBANDS" " 1"]) one_kpoint [] one_band) false true = Exn (SysExit 502) /\
  parsew (broken (set_params [spin_par]) one_kpoint [] one_band) false true = Exn (SysExit 503) /\
  parsew (broken (set_params [spin_par; i_ "NBANDS" " 1"]) one_kpoint [] one_projection) false true = Exn (SysExit 503) /\
  parsew (broken (set_params [spin_par; i_ "NBANDS" " 1"]) [] (atoms_are "Na") one_projection) false true = Exn (SysExit 504) /\
  parsew (broken (set_params [spin_par; i_ "NBANDS" " 2"]) one_kpoint (atoms_are "Na") one_band) false true = Exn (SysExit 505) /\
  parsew (broken (set_params [spin_par; i_ "NBANDS" " 2"]) one_kpoint (atoms_are "Na") one_projection) false true = Exn (SysExit 505) /\
  parsew (broken [] [] (atoms_are "Xx") []) false true = Exn (SysExit 506) /\
  parsew (broken (set_params [i_ "NBANDS" "****"]) [] [] []) false true = Exn (SysExit 509) /\
  parsew (broken [] [box "kpoints" [named_ "varray" "weights" (vs [" 0.5 0.5 "])]] [] []) false true = Exn (SysExit 509) /\
  (exists p, parsew (broken (set_params [spin_par; i_ "NBANDS" " 1"]) one_kpoint (atoms_are "Na") (one_band ++ one_projection)) false true = Ok p) /\
  parsee false (events None (broken [] [] [] [box "dos" [i_ "efermi" " 1.0"; i_ "efermi" " 2.0"]])) = Exn (SysExit 500) /\
  parsee false (events None (broken [] [] [] [box "dos" [box "partial" []]])) = Exn (SysExit 501).
Proof. repeat (split; [first [vm_compute; reflexivity | eexists; vm_compute; reflexivity]|]). vm_compute. reflexivity. Qed.
