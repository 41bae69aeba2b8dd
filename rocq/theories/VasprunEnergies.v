(** Energies in the regular parser, and the accessors. *)
From Coq Require Import Ascii String List NArith ZArith Bool Lia.
From Verif Require Import PyBase PyStrLemmas PyNum UtilsModel LineModel KpointsCodes OutcarModel DoscarProofs StreamConfig ChgcarModel ChgcarSpec ChgcarProofs VasprunTypes VasprunXml VasprunModel VasprunSpec VasprunTables VasprunTree VasprunSteps.
Import ListNotations.
Local Open Scope list_scope.

Lemma substrb_false p t : (forall a b, t <> a ++ p ++ b) -> substrb p t = false.
Proof. intros H. destruct (substrb p t) eqn:E; auto. apply substrb_spec in E as (a & b & E). destruct (H a b E). Qed.
Lemma convert_f_ok (t : str) v : (forall a b, t <> a ++ lit "****" ++ b) -> parse_float t = Some v -> convert_f (Some t) = Ok (Some v).
Proof. intros H P. unfold convert_f, stars. rewrite substrb_false by auto. unfold OutcarModel.to_float. rewrite P. auto. Qed.
Lemma step_energy_ok c key p : energy_holds c key p -> step_energy c key = Ok (Some (ep_steps p, Some (ep_final p))).
Proof.
  intros (F & NE & e & rest & t & FC & T & ST & P). unfold step_energy. change (findall [Tag "scstep"; Tag "energy"; item key] c) with (some_list (findall_deep (scstep_path key) c)).
  rewrite some_list_some by (intros E; rewrite E in F; inversion F; congruence). rewrite (convert1D_holds _ _ F). cbn [bind].
  change (findall_child [Tag "energy"; item key] c) with (findall_child (final_path key) c). rewrite FC, T, (convert_f_ok _ _ ST P). auto.
Qed.
Definition tot_of (f : str -> energy_pair) : tot :=
  let e0 := f (lit "energy_extrapolated") in let e1 := f (lit "energy_free") in let e2 := f (lit "energy_no_entropy") in
  Tot (Some (ep_steps e0)) (Some (ep_steps e1)) (Some (ep_steps e2)) (Some (Some (ep_final e0))) (Some (Some (ep_final e1))) (Some (Some (ep_final e2))).
Lemma step_energies_ok c f : energies_hold c f -> step_energies c = Ok (Some (tot_of f)).
Proof.
  intros H. unfold step_energies. unfold energies_hold, keys_of_types in H. rewrite (step_energy_ok c _ (f (lit "energy_extrapolated"))) by (apply H; left; auto). cbn [bind].
  rewrite (step_energy_ok c _ (f (lit "energy_free"))) by (apply H; right; left; auto). cbn [bind].
  rewrite (step_energy_ok c _ (f (lit "energy_no_entropy"))) by (apply H; right; right; left; auto). auto.
Qed.
Definition numbered_from {A} (n : nat) (l : list A) : ndict A := combine (seq n (length l)) l.
Lemma energies_from_ok n cs l : Forall2 energies_hold cs l -> energies_from n cs = Ok (Some (numbered_from n (map tot_of l))).
Proof.
  intros F. revert n. induction F as [|c f cs l H F IH]; intros n; cbn [energies_from map]; auto. rewrite (step_energies_ok _ _ H). cbn [bind]. rewrite IH. auto.
Qed.
Lemma fetch_totens_ok x l : l <> [] -> Forall2 energies_hold (calculations x) l -> fetch_totens x = Ok (Some (numbered_from 1 (map tot_of l))).
Proof.
  intros NE F. unfold fetch_totens. change (findall [Tag "calculation"] x) with (some_list (calculations x)). rewrite some_list_some; [apply energies_from_ok; auto|]. intros E. rewrite E in F. inversion F; congruence.
Qed.
(** the accessors *)
Lemma from_keys {A} n (l : list A) : map fst (numbered_from n l) = seq n (length l).
Proof. unfold numbered_from. revert n. induction l as [|a l IH]; intros n; cbn; auto. f_equal. apply IH. Qed.
Lemma from_snd {A} n (l : list A) : map snd (numbered_from n l) = l.
Proof. unfold numbered_from. revert n. induction l as [|a l IH]; intros n; cbn; auto. f_equal. apply IH. Qed.
Lemma from_get {A} n (l : list A) i a : nth_error l i = Some a -> ndget (n + i) (numbered_from n l) = Some a.
Proof.
  revert n i. unfold numbered_from. induction l as [|b l IH]; intros n [|i] H; try discriminate; cbn in *.
  - injection H as ->. rewrite Nat.add_0_r, Nat.eqb_refl. auto.
  - destruct (Nat.eqb_spec n (n + S i)); [lia|]. rewrite Nat.add_succ_r. apply (IH (S n)). auto.
Qed.
Lemma from_max {A} (l : list A) : l <> [] -> max_key (numbered_from 1 l) = Some (length l).
Proof.
  intros N. unfold max_key. rewrite from_keys. destruct l as [|x l]; [congruence|]. cbn [length seq]. f_equal. clear.
  assert (forall n a b, a <= b -> fold_right Nat.max a (seq b n) = match n with 0 => a | _ => b + n - 1 end) as H.
  { induction n as [|n IH]; intros a b L; auto. cbn [seq fold_right]. rewrite IH by lia. destruct n; lia. }
  rewrite H by lia. destruct (length l); lia.
Qed.
Lemma from_sorted {A} n (l : list A) : sort_keys (numbered_from n l) = numbered_from n l.
Proof.
  unfold sort_keys, numbered_from. revert n. induction l as [|a l IH]; intros n; cbn; auto. rewrite IH. destruct l as [|b l]; cbn; auto.
  destruct (Nat.leb_spec n (S n)); [auto|lia].
Qed.
Definition supported : list str := [lit "energy_extrapolated"; lit "energy_free"; lit "energy_no_entropy"].
Lemma energy_of_tot f t : In t supported -> energy_of (tot_of f) t = (Some (ep_steps (f t)), Some (Some (ep_final (f t)))).
Proof. intros I. repeat (destruct I as [<-|I]; [reflexivity|]). destruct I. Qed.
Lemma shown_last (xs : list float) : xs <> [] -> exists v, nth_error xs (length xs - 1) = Some v /\ shown true xs = [v].
Proof.
  intros NE. destruct (exists_last NE) as (p & v & ->). exists v. rewrite app_length. cbn [length]. replace (length p + 1 - 1) with (length p) by lia.
  split; [rewrite nth_error_app2, Nat.sub_diag by lia; auto|]. unfold shown. rewrite rev_app_distr. auto.
Qed.
Lemma one_step_ok f t nosc : In t supported -> ep_steps (f t) <> [] -> one_step (tot_of f) t nosc = Ok (Some (ep_final (f t)), shown nosc (ep_steps (f t)), length (shown nosc (ep_steps (f t)))).
Proof.
  intros I NE. unfold one_step. rewrite (energy_of_tot _ _ I). cbn [of_option bind]. destruct nosc; auto. destruct (shown_last _ NE) as (v & N & S). rewrite N, S. auto.
Qed.
Lemma selected_ok status (l sel : list (str -> energy_pair)) : l <> [] -> selects status l sel -> selected (numbered_from 1 (map tot_of l)) status = Ok (map tot_of sel).
Proof.
  intros NE S. unfold selected. inversion S as [a r E1 E2|p a E1 E2|l' E1 E2]; subst; cbv [seqb lit list_ascii_of_string aeqb Ascii.eqb Bool.eqb]; cbn iota.
  - cbn. auto.
  - rewrite from_max by (destruct p; discriminate). cbn [of_option bind]. rewrite map_length, app_length. cbn [length]. rewrite map_app. cbn [map].
    rewrite Nat.add_1_r. rewrite (from_get 1 _ (length p) (tot_of a)) by (rewrite nth_error_app2; rewrite map_length, ?Nat.sub_diag by lia; auto). auto.
  - rewrite from_sorted, from_snd. auto.
Qed.
Lemma selects_status {A} status (l sel : list A) : selects status l sel -> check_status status = Ok tt.
Proof. intros H; inversion H; reflexivity. Qed.
Lemma selects_in {A} status (l sel : list A) a : selects status l sel -> In a sel -> In a l.
Proof. intros H I. inversion H; subst; auto; destruct I as [<-|[]]; [left; auto|apply in_or_app; right; left; auto]. Qed.
Lemma smem_in t l : In t l -> smem t l = true.
Proof. intros I. unfold smem. apply existsb_exists. exists t. split; auto. apply seqb_refl. Qed.
Lemma mapM_map {A B C} (g : B -> res C) (f : A -> B) (h : A -> C) l : (forall a, In a l -> g (f a) = Ok (h a)) -> mapM g (map f l) = Ok (map h l).
Proof. intros H. apply mapM_Forall2. induction l as [|a l IH]; constructor; [apply H; left; auto|apply IH; intros; apply H; right; auto]. Qed.
Lemma get_energies_ok l status sel etype tl nosc : l <> [] -> (forall f t, In f l -> In t supported -> ep_steps (f t) <> []) -> selects status l sel -> (forall t, In t (etype ++ [tl]) -> In t supported) ->
  get_energies (Some (numbered_from 1 (map tot_of l))) status (etype ++ [tl]) nosc =
  Ok (Some (Energies (map (fun t => (t, (map (fun f => Some (ep_final (f t))) sel, flat_map (fun f => shown nosc (ep_steps (f t))) sel))) (etype ++ [tl]))
                     (map (fun f => length (shown nosc (ep_steps (f tl)))) sel))).
Proof.
  intros NE NS S T. unfold get_energies. assert (forallb (fun t => smem t energy_types) (etype ++ [tl]) = true) as -> by (apply forallb_forall; intros t I; apply smem_in, T; auto). cbn [negb].
  rewrite (selects_status _ _ _ S). cbn [bind].
  set (g := fun t => (t, (map (fun f => Some (ep_final (f t))) sel, flat_map (fun f => shown nosc (ep_steps (f t))) sel), map (fun f => length (shown nosc (ep_steps (f t)))) sel)).
  assert (forall ts, (forall t, In t ts -> In t supported) -> mapM (fun t => let* ts := selected (numbered_from 1 (map tot_of l)) status in let* l := mapM (fun x => one_step x t nosc) ts in
    Ok (t, (map (fun r => fst (fst r)) l, flat_map (fun r => snd (fst r)) l), map snd l)) ts = Ok (map g ts)) as M.
  { intros ts HT. apply mapM_Forall2. induction ts as [|t ts IH]; constructor; [|apply IH; intros; apply HT; right; auto]. rewrite (selected_ok _ _ _ NE S). cbn [bind].
    rewrite (mapM_map _ tot_of (fun f => (Some (ep_final (f t)), shown nosc (ep_steps (f t)), length (shown nosc (ep_steps (f t)))))).
    - cbn [bind]. unfold g. rewrite !map_map. rewrite !flat_map_concat_map, map_map. auto.
    - intros f I. apply one_step_ok; [apply HT; left; auto|]. apply NS; [eapply selects_in; eauto|apply HT; left; auto]. }
  rewrite (M _ T). cbn [bind]. rewrite map_app, app_length. cbn [map length]. rewrite nth_error_app2 by (rewrite map_length; lia). rewrite map_length. replace (length etype + 1 - 1 - length etype) with 0 by lia. cbn [nth_error of_option bind].
  f_equal. f_equal. f_equal. rewrite !map_app, map_map. auto.
Qed.
