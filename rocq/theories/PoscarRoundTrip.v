(** Reading back what the POSCAR writer wrote. *)
From Coq Require Import Ascii String List NArith ZArith QArith Bool Lia Arith Permutation.
From Verif Require Import PyBase PyNum PyStrLemmas PyNumLemmas PyLines PyToken UtilsModel KpointsModel KpointsSpec PoscarModel ArithModel PoscarGroup PoscarSpec PoscarRead.
Import ListNotations.
Local Open Scope list_scope.
Local Open Scope bool_scope.
Local Open Scope nat_scope.

(** ** Channels *)
Lemma splitlines_keep_app w r : nobreak w = true -> splitlines_keep (w ++ nl :: r) = (w ++ [nl]) :: splitlines_keep r.
Proof.
  induction w as [|c w IH]; intros N.
  - cbn [app splitlines_keep]. change (is_break nl) with true. cbv iota. destruct r as [|c' r']; [reflexivity|].
    change (aeqb nl cr) with false. reflexivity.
  - cbn [nobreak forallb] in N. apply andb_true_iff in N as [N1 N2]. apply negb_true_iff in N1. fold (nobreak w) in N2.
    change ((c :: w) ++ nl :: r) with (c :: (w ++ nl :: r)). cbn [splitlines_keep]. rewrite N1. rewrite (IH N2).
    destruct w; reflexivity.
Qed.
Lemma splitlines_keep_unlines ls : forallb nobreak ls = true -> splitlines_keep (unlines ls) = map (fun l => l ++ [nl]) ls.
Proof.
  induction ls as [|l ls IH]; auto. cbn [forallb map]. intros H. apply andb_true_iff in H as [H1 H2].
  rewrite unlines_cons, splitlines_keep_app by auto. rewrite IH by auto. reflexivity.
Qed.
Lemma plines_unlines ch ls : forallb nobreak ls = true -> plines ch (unlines ls) = map (fun l => l ++ [nl]) ls.
Proof.
  intros N. destruct ch; cbn [plines].
  - apply splitlines_keep_unlines; auto.
  - rewrite translate_nochange by (apply unlines_nocr; auto). apply readlines_unlines. apply forallb_nobreak_nonl; auto.
  - apply readlines_unlines. apply forallb_nobreak_nonl; auto.
Qed.

(** ** The species loop, forwards *)
Lemma species_run_app_fwd spec atoms a : forall b st l1 st1 l2 st2, species_run spec atoms a st = Ok (l1, st1) ->
  species_run spec atoms b st1 = Ok (l2, st2) -> species_run spec atoms (a + b) st = Ok (l1 ++ l2, st2).
Proof.
  induction a as [|a IH]; intros b st l1 st1 l2 st2 H1 H2; cbn [species_run Nat.add] in *.
  - inversion H1; subst. exact H2.
  - apply bind_ok in H1 as [[s st'] [E1 H1]]. apply bind_ok in H1 as [[l st3] [E2 H1]]. inversion H1; subst.
    rewrite E1. cbn [bind]. rewrite (IH b st' l st1 l2 st2 E2 H2). reflexivity.
Qed.
Lemma species_run_next_fwd spec atoms pos : forall slot a,
  skipn slot atoms = a :: pos -> Forall (fun a => 0 < a)%Z pos -> length pos < length (skipn slot spec) ->
  exists st', species_run spec atoms (Z.to_nat (total pos)) (slot, (a + 1)%Z) = Ok (announced (skipn (S slot) spec) pos, st').
Proof.
  induction pos as [|p pos IH]; intros slot a Sk F L.
  - eexists. cbn. unfold announced. destruct (match spec with [] => [] | _ :: l => skipn slot l end); reflexivity.
  - inversion F; subst. rewrite total_cons. pose proof (total_nonneg pos H2) as TP.
    pose proof Sk as Sk1. apply nth_error_skipn in Sk1 as [Na Sk1]. rewrite skipn_length in L. cbn [length] in L.
    destruct (nth_error spec (S slot)) as [s|] eqn:Ns; [|apply nth_error_None in Ns; lia].
    replace (Z.to_nat (p + total pos)) with (S (Z.to_nat (p - 1) + Z.to_nat (total pos))) by lia.
    pose proof Sk1 as Sk2. apply nth_error_skipn in Sk2 as [Np Sk2].
    destruct (IH (S slot) p Sk1 H2) as [st' R]; [rewrite skipn_length; lia|].
    assert (species_run spec atoms (Z.to_nat (p - 1)) (S slot, 2%Z) = Ok (repeat s (Z.to_nat (p - 1)), (S slot, (p + 1)%Z))) as R0.
    { rewrite (species_run_slot spec atoms (S slot) p s) by (auto; lia). do 3 f_equal. lia. }
    pose proof (species_run_app_fwd _ _ _ _ _ _ _ _ _ R0 R) as R2.
    exists st'. cbn [species_run]. unfold next_specie. cbn [fst snd]. unfold py_nth at 1. rewrite Na. cbn [of_option bind].
    assert ((a <? a + 1)%Z = true) as -> by (apply Z.ltb_lt; lia). cbn [fst snd]. unfold py_nth. rewrite Ns. cbn [of_option bind].
    change (1 + 1)%Z with 2%Z. rewrite R2. cbn [bind]. rewrite (skipn_nth spec (S slot) s Ns). unfold announced. cbn [combine flat_map fst snd].
    replace (Z.to_nat p) with (S (Z.to_nat (p - 1))) by lia. reflexivity.
Qed.
Lemma species_run_fwd spec atoms : Forall (fun a => 0 < a)%Z atoms -> length atoms <= length spec ->
  exists st', species_run spec atoms (Z.to_nat (total atoms)) (0, 1%Z) = Ok (announced spec atoms, st').
Proof.
  intros F L. destruct atoms as [|p pos]; [eexists; destruct spec; reflexivity|]. inversion F; subst.
  destruct spec as [|s spec]; [cbn in L; lia|]. pose proof (total_nonneg pos H2) as TP.
  rewrite total_cons. replace (Z.to_nat (p + total pos)) with (Z.to_nat p + Z.to_nat (total pos)) by lia.
  destruct (species_run_next_fwd (s :: spec) (p :: pos) pos 0 p eq_refl H2) as [st' R]; [cbn in *; lia|].
  exists st'. assert (species_run (s :: spec) (p :: pos) (Z.to_nat p) (0, 1%Z) = Ok (repeat s (Z.to_nat p), (0, (p + 1)%Z))) as R0.
  { rewrite (species_run_slot (s :: spec) (p :: pos) 0 p s) by (auto; lia). do 3 f_equal. lia. }
  rewrite (species_run_app_fwd _ _ _ _ _ _ _ _ _ R0 R). reflexivity.
Qed.
Lemma announced_expand gs : announced (map fst gs) (map (fun g => Z.of_nat (snd g)) gs) = expand gs.
Proof.
  induction gs as [|[k n] gs IH]; auto. cbn [map announced combine flat_map fst snd expand]. unfold announced in IH. rewrite Nat2Z.id, IH. reflexivity.
Qed.
Lemma total_groups gs : total (map (fun g : str * nat => Z.of_nat (snd g)) gs) = Z.of_nat (length (expand gs)).
Proof.
  induction gs as [|[k n] gs IH]; auto. cbn [map snd]. rewrite total_cons, IH. cbn [expand flat_map fst snd]. rewrite app_length, repeat_length. fold (expand gs). lia.
Qed.
Lemma expand_map (f : str -> str) gs : expand (map (fun g => (f (fst g), snd g)) gs) = map f (expand gs).
Proof.
  induction gs as [|[k n] gs IH]; auto. cbn [map expand flat_map fst snd]. rewrite map_app. unfold expand in IH. rewrite IH. f_equal.
  clear. induction n; cbn; congruence.
Qed.

(** ** Text lemmas *)
Lemma capitalize_space s : nospace (capitalize s) = nospace s.
Proof. destruct s as [|c s]; auto. cbn [capitalize nospace forallb]. rewrite upper_space. f_equal. apply nospace_lower. Qed.
Lemma capitalize_token s : is_token (capitalize s) = is_token s.
Proof. destruct s as [|c s]; auto. change (nospace (capitalize (c :: s)) = nospace (c :: s)). apply capitalize_space. Qed.
Lemma lower_capitalize s : lower (capitalize s) = lower s.
Proof. destruct s as [|c s]; auto. cbn [capitalize lower map]. rewrite lower_upper1. f_equal. apply lower_idem. Qed.
Lemma capitalize_idem s : capitalize (capitalize s) = capitalize s.
Proof.
  destruct s as [|c s]; auto. cbn [capitalize]. f_equal; [|apply lower_idem].
  assert (aeqb (upper1 (upper1 c)) (upper1 c) = true) as H by (revert c; apply forall_ascii; vm_compute; reflexivity). apply aeqb_eq in H. exact H.
Qed.
Lemma split_ws_rstrip l : split_ws (rstrip l) = split_ws l.
Proof. destruct (rstrip_spec l) as [q [B E]]. rewrite E at 2. rewrite split_ws_app_blank; auto. Qed.
Lemma rstrip_nobreak l : nobreak l = true -> nobreak (rstrip l) = true.
Proof. destruct (rstrip_spec l) as [q [B E]]. intros H. rewrite E in H. rewrite nobreak_app in H. apply andb_true_iff in H. tauto. Qed.
Lemma token_nobreak t : is_token t = true -> nobreak t = true.
Proof. intros H. apply nospace_nobreak, is_token_nospace; auto. Qed.
Lemma pad_left_nobreak w t : nobreak t = true -> nobreak (pad_left w t) = true.
Proof. intros H. unfold pad_left. rewrite nobreak_app, nobreak_repeat. exact H. Qed.
Lemma split_ws_field t q r : is_token t = true -> blank q = true -> split_ws ((t ++ q) ++ [sp] ++ r) = t :: split_ws r.
Proof.
  intros T B. rewrite split_ws_sp. rewrite split_ws_app_blank by auto. rewrite split_ws_word; [reflexivity|apply is_token_ne; auto|apply is_token_nospace; auto].
Qed.
Lemma species_split gs : Forall (fun g => is_token (fst g) = true) gs -> split_ws (species_text gs) = map (fun g => capitalize (fst g)) gs.
Proof.
  intros F. unfold species_text. rewrite split_ws_rstrip. induction F as [|g gs T F IH]; auto. cbn [flat_map map].
  unfold pad_right at 1. rewrite <- app_assoc. rewrite split_ws_field; [|rewrite capitalize_token; auto|apply PyFmtLemmas.blank_repeat]. rewrite IH. reflexivity.
Qed.
Lemma counts_split gs : split_ws (counts_text gs) = map (fun g => str_of_Z (Z.of_nat (snd g))) gs.
Proof.
  unfold counts_text. rewrite split_ws_rstrip. induction gs as [|g gs IH]; auto. cbn [flat_map map]. rewrite <- app_assoc. rewrite split_ws_sp, split_ws_fmtd, IH. reflexivity.
Qed.
Lemma species_nobreak gs : Forall (fun g => is_token (fst g) = true) gs -> nobreak (species_text gs) = true.
Proof.
  intros F. unfold species_text. apply rstrip_nobreak. induction F as [|g gs T F IH]; auto. cbn [flat_map]. rewrite nobreak_app, IH.
  unfold pad_right. rewrite !nobreak_app, nobreak_repeat, token_nobreak by (rewrite capitalize_token; auto). reflexivity.
Qed.
Lemma counts_nobreak gs : nobreak (counts_text gs) = true.
Proof.
  unfold counts_text. apply rstrip_nobreak. induction gs as [|g gs IH]; auto. cbn [flat_map]. rewrite !nobreak_app, nobreak_fmtd, IH. reflexivity.
Qed.
(** the flags *)
Definition flags_image (f : list bool) : list bool := map (fun i => nth i f true) [0; 1; 2].
Definition flag_letter (b : bool) : str := if b then lit "T" else lit "F".
Lemma flags_text_ok f s : flags_text f = Ok s -> s = [sp] ++ join [sp] (map flag_letter (flags_image f)).
Proof.
  unfold flags_text. intros H. apply bind_ok in H as [sel [H E]]. inversion E. subst s. clear E. do 2 f_equal.
  destruct f as [|a f]; cbn [mark] in H; [inversion H; reflexivity|].
  assert (forall f i sel sel', length sel <= i -> mark f i sel = Ok sel' -> sel' = sel) as K.
  { clear. induction f as [|b f IH]; intros i sel sel' L H; cbn [mark] in H; [inversion H; auto|]. destruct b; [eapply IH; [|eauto]; lia|].
    assert (i <? length sel = false) as E by (apply Nat.ltb_ge; auto). rewrite E in H. discriminate. }
  destruct a; cbn [length Nat.ltb Nat.leb list_set] in H;
  (destruct f as [|b f]; cbn [mark length Nat.ltb Nat.leb] in H; [inversion H; reflexivity|]);
  destruct b; cbn [list_set] in H;
  (destruct f as [|c f]; cbn [mark length Nat.ltb Nat.leb] in H; [inversion H; reflexivity|]);
  destruct c; cbn [list_set] in H; (apply K in H; [rewrite H; reflexivity|cbn; lia]).
Qed.

Lemma flags_line pre f : split_ws (pre ++ ([sp] ++ join [sp] (map flag_letter (flags_image f))) ++ [nl]) = split_ws pre ++ map flag_letter (flags_image f).
Proof.
  rewrite <- app_assoc, split_ws_sp. f_equal. rewrite split_ws_nl. apply split_ws_join; auto.
  unfold flags_image. cbn [map forallb]. destruct (nth 0 f true), (nth 1 f true), (nth 2 f true); reflexivity.
Qed.
Lemma flag_letter_read b : negb (substrb (lit "f") (lower (flag_letter b))) = b.
Proof. destruct b; reflexivity. Qed.

Lemma zat_nat {T} (l : list T) n : zat l (Z.of_nat n) = py_nth l n.
Proof.
  unfold zat, list_index. rewrite Nat2Z.id. destruct (Z.leb_spec 0 (Z.of_nat n)); [|lia]. destruct (Z.ltb_spec (Z.of_nat n) (Z.of_nat (length l))) as [L|L].
  - reflexivity.
  - unfold py_nth. assert (nth_error l n = None) as -> by (apply nth_error_None; lia). reflexivity.
Qed.

Section RT.
Variable A : arith.
Variable p : nat.
Variable rr : num A -> num A.
Hypothesis FO : fmt_ok A p rr.
Hypothesis UO : unit_ok A.
Notation num := (num A).
Notation vec := (vec A).
Notation mat := (mat A).

(** ** The reader, forwards *)
Lemma read_sites_intro ls spec atoms direct selective scaling cell k : forall i st raw st',
  length raw = k -> Forall2 (site_line A direct selective scaling cell) (firstn k (skipn i ls)) raw ->
  species_run spec atoms k st = Ok (map (fun r => fst (fst r)) raw, st') ->
  read_sites A ls spec atoms direct selective scaling cell i k st = Ok raw.
Proof.
  induction k as [|k IH]; intros i st raw st' L F R; cbn [read_sites].
  - destruct raw; [reflexivity|discriminate].
  - destruct raw as [|r raw]; [discriminate|]. cbn [map species_run] in R.
    apply bind_ok in R as [[s st1] [R1 R]]. apply bind_ok in R as [[l st2] [R2 R]]. inversion R; subst. rewrite R1. cbn [bind].
    destruct (skipn i ls) as [|l0 rest] eqn:E; [inversion F|]. apply nth_error_skipn in E as [E1 E2]. cbn [firstn] in F. inversion F; subst.
    unfold py_nth. rewrite E1. cbn [of_option bind]. destruct r as [[s q] f]. cbn [fst snd] in *.
    destruct H2 as (x & y & z & T & P & G). cbn [fst snd] in *.
    assert (num3 A l0 (fun x0 => nmul A x0 (if direct then n1 A else scaling)) =
            Ok (map (fun x0 => nmul A x0 (if direct then n1 A else scaling)) [x; y; z])) as ->.
    { apply num3_ok. exists x, y, z. auto. }
    cbn [bind map]. assert ((if direct then Ok [nmul A x (n1 A); nmul A y (n1 A); nmul A z (n1 A)] else
       to_direct A [nmul A x scaling; nmul A y scaling; nmul A z scaling] cell) = Ok q) as E3.
    { destruct direct; [rewrite P; reflexivity|exact P]. }
    destruct direct; [inversion E3; subst q|rewrite E3]; cbn [bind];
    (assert ((if selective then flags3 l0 else Ok [true; true; true]) = Ok f) as -> by (destruct selective; [exact G|rewrite G; reflexivity]));
    cbn [bind]; (rewrite (IH (S i) st1 raw st'); [reflexivity|inversion L; auto|auto|exact R2]).
Qed.
Lemma from_list_intro ls es l0 l1 l2 l3 l4 scaling r2 r3 r4 spec atoms selective direct first raw hasv vdirect predictor vel pre :
  reading A ls es l0 l1 l2 l3 l4 scaling r2 r3 r4 spec atoms selective direct first raw hasv vdirect predictor vel pre -> from_list A ls = Ok es.
Proof.
  intros [H0 H1 (t & r & Ht & Hs) NS [H2 R2] [H3 R3] [H4 R4] [L3 L4] (l5 & H5 & N5 & <-) (l6 & H6 & R6) HM HR HT HV ->].
  unfold from_list. unfold PoscarModel.vec, PoscarModel.mat in *. rewrite <- py_nth_ok in *. rewrite H0. cbn [bind]. rewrite H5. cbn [bind]. rewrite H1. cbn [bind].
  rewrite Ht. unfold py_nth at 1. cbn [nth_error of_option bind]. unfold num_tok at 1. rewrite Hs. cbn [of_option bind]. rewrite NS, N5.
  assert (forall l r, number_line A l r -> mapM (num_tok A) (split_ws l) = Ok r) as NL.
  { intros l r' K. apply Forall2_mapM. eapply Forall2_impl'; [|exact K]. intros a b Q. unfold num_tok. rewrite Q. reflexivity. }
  rewrite H2. cbn [bind]. rewrite (NL _ _ R2). cbn [bind]. rewrite H3. cbn [bind]. rewrite (NL _ _ R3). cbn [bind].
  rewrite H4. cbn [bind]. rewrite (NL _ _ R4). cbn [bind].
  match goal with |- context [asarray A ?m] => assert (asarray A m = Ok m) as -> end.
  { unfold asarray. cbn [forallb]. rewrite Nat.eqb_refl, L3, L4, Nat.eqb_refl. reflexivity. }
  cbn [bind]. rewrite H6. cbn [bind].
  assert (mapM int_tok (split_ws l6) = Ok atoms) as ->.
  { apply Forall2_mapM. eapply Forall2_impl'; [|exact R6]. intros a b Q. unfold int_tok. rewrite Q. reflexivity. }
  cbn [bind]. apply read_mode_ok in HM. rewrite HM. cbn [bind]. fold (total atoms). rewrite HR. cbn [bind]. rewrite HT. cbn [bind].
  destruct hasv.
  - destruct HV as (v & -> & V1 & V2). rewrite V1. cbn [bind]. rewrite V2. reflexivity.
  - destruct HV as [-> HV]. destruct predictor.
    + destruct HV as (b & -> & V). rewrite V. reflexivity.
    + rewrite HV. reflexivity.
Qed.

(** ** Numbers *)
Definition tok (x : num) : str := nfmt A 0 p x.
Lemma num_text_tok x : num_text A p x = pad_left (p + 4) (tok x).
Proof. unfold num_text. apply (fo_pad A p rr FO). Qed.
Lemma num_text_split x : split_ws (num_text A p x) = [tok x].
Proof. rewrite num_text_tok. apply split_ws_pad. apply (fo_token A p rr FO). Qed.
Lemma num_text_nobreak x : nobreak (num_text A p x) = true.
Proof. rewrite num_text_tok. apply pad_left_nobreak, token_nobreak, (fo_token A p rr FO). Qed.
Lemma tok_parse x : nparse A (tok x) = Some (rr x).
Proof. apply (fo_parse A p rr FO). Qed.
Lemma mul_r x : nmul A (rr x) (n1 A) = rr x.
Proof. apply (uo_r A UO (tok x)). apply tok_parse. Qed.
Lemma mul_l x : nmul A (n1 A) (rr x) = rr x.
Proof. apply (uo_l A UO (tok x)). apply tok_parse. Qed.
Definition image (v : vec) : vec := map rr (firstn 3 v).
Lemma line3_ok v t : line3 A p v = Ok t -> exists x y z r, v = x :: y :: z :: r /\ t = join [sp] (map (num_text A p) [x; y; z]).
Proof.
  unfold line3. intros H. destruct v as [|x [|y [|z r]]]; try discriminate. inversion H. exists x, y, z, r. auto.
Qed.
Lemma line3_split x y z : split_ws (join [sp] (map (num_text A p) [x; y; z])) = [tok x; tok y; tok z].
Proof. cbn [map join]. rewrite !split_ws_sp, !num_text_split. reflexivity. Qed.
Lemma line3_nobreak x y z : nobreak (join [sp] (map (num_text A p) [x; y; z])) = true.
Proof. apply nobreak_join; auto. cbn [map forallb]. rewrite !num_text_nobreak. reflexivity. Qed.
Lemma three_numbers_line x y z t r : split_ws t = tok x :: tok y :: tok z :: r -> three_numbers A t (rr x) (rr y) (rr z).
Proof. intros E. exists (tok x), (tok y), (tok z), r. rewrite !tok_parse. auto. Qed.

(** ** One vector, one site *)
(** [v] was written (as such, or multiplied by the cell) and [v'] is read back *)
Definition vec_back (wd : bool) (cell : mat) (v v' : vec) : Prop :=
  exists w, shown A wd cell v = Ok w /\ 3 <= length w /\
    if wd then v' = image w else to_direct A (image w) (map (map rr) cell) = Ok v'.
Definition opt_back (R : vec -> vec -> Prop) (o o' : option vec) : Prop :=
  match o, o' with None, None => True | Some v, Some v' => R v v' | _, _ => False end.
(** the site [w], written, is read back as [s] *)
Definition site_back (wd : bool) (cell : mat) (w : wsite A) (s : site A) : Prop :=
  si_specie A s = lower (ws_specie A w) /\ si_direct A s = true /\
  si_selective A s = flags_image (ws_selective A w) /\
  vec_back wd cell (ws_position A w) (si_position A s) /\
  opt_back (vec_back wd cell) (ws_velocities A w) (si_velocities A s) /\
  opt_back (fun v v' => v' = image v) (ws_predictors A w) (si_predictors A s).
(** in cartesian mode the cell, as rewritten, must be invertible *)
Definition invertible (wd : bool) (cell : mat) : Prop :=
  wd = true \/ exists i, ninv A (map (map rr) cell) = Some i /\ length i = 3.
Definition square3 (cell : mat) : Prop := cell_ok A (PMat A cell) = true.
Lemma square3_shape cell : square3 cell -> exists a b c d e f g h i, cell = [[a; b; c]; [d; e; f]; [g; h; i]].
Proof.
  unfold square3. destruct cell as [|[|a [|b [|c []]]] [|[|d [|e [|f []]]] [|[|g [|h [|k []]]] []]]]; try discriminate. intros _. repeat eexists.
Qed.

Lemma back_exists wd cell v w t : square3 cell -> invertible wd cell -> shown A wd cell v = Ok w -> line3 A p w = Ok t ->
  exists v' x y z, vec_back wd cell v v' /\ t = join [sp] (map (num_text A p) [x; y; z]) /\
    if wd then v' = [rr x; rr y; rr z] else to_direct A [rr x; rr y; rr z] (map (map rr) cell) = Ok v'.
Proof.
  intros S I W L. apply line3_ok in L as (x & y & z & r & -> & ->). destruct wd.
  - exists [rr x; rr y; rr z], x, y, z. split; [|auto]. exists (x :: y :: z :: r). split; auto. split; [cbn; lia|reflexivity].
  - destruct I as [I|[i [I L]]]; [discriminate|].
    assert (to_direct A [rr x; rr y; rr z] (map (map rr) cell) = Ok (ndot A [rr x; rr y; rr z] i)) as E.
    { unfold to_direct, inv. assert (square A (map (map rr) cell) = true) as ->.
      { destruct (square3_shape cell S) as (a & b & c & d & e & f & g & h & k & ->). reflexivity. }
      rewrite I. cbn [of_option bind]. unfold dot. rewrite L. reflexivity. }
    exists (ndot A [rr x; rr y; rr z] i), x, y, z. split; [|auto]. exists (x :: y :: z :: r). split; auto. split; [cbn; lia|exact E].
Qed.

Definition nls (l : str) : str := l ++ [nl].
(** the lines of positions *)
Lemma positions_read wd sel cell out pos : square3 cell -> invertible wd cell ->
  mapM (position_text A p wd sel cell) out = Ok pos ->
  (sel = false -> Forall (fun w => existsb negb (ws_selective A w) = false) out) ->
  forallb nobreak pos = true /\ exists raw, length raw = length out /\
    Forall2 (site_line A wd sel (n1 A) (map (map rr) cell)) (map nls pos) raw /\
    Forall2 (fun w r => vec_back wd cell (ws_position A w) (snd (fst r)) /\ snd r = flags_image (ws_selective A w) /\
                        fst (fst r) = capitalize (ws_specie A w)) out raw.
Proof.
  intros S I. revert pos. induction out as [|w out IH]; intros pos H NF; cbn [mapM] in H.
  - inversion H. split; auto. exists []. repeat constructor.
  - apply bind_ok in H as [t [H1 H]]. apply bind_ok in H as [pos' [H2 H]]. inversion H; subst. clear H.
    destruct (IH pos' H2) as [NB (raw & L & F1 & F2)]; [intros E; specialize (NF E); inversion NF; auto|]. clear IH.
    unfold position_text in H1. apply bind_ok in H1 as [v [H1 H]]. apply bind_ok in H as [t0 [H3 H]]. apply bind_ok in H as [f [H4 H]]. inversion H; subst. clear H.
    destruct (back_exists _ _ _ _ _ S I H1 H3) as (v' & x & y & z & VB & -> & E).
    assert (f = if sel then [sp] ++ join [sp] (map flag_letter (flags_image (ws_selective A w))) else []) as Ef.
    { destruct sel; [apply flags_text_ok; auto|inversion H4; auto]. }
    assert (split_ws (nls (join [sp] (map (num_text A p) [x; y; z]) ++ f)) =
            [tok x; tok y; tok z] ++ if sel then map flag_letter (flags_image (ws_selective A w)) else []) as ES.
    { unfold nls. rewrite Ef. destruct sel.
      - rewrite <- app_assoc, flags_line, line3_split. reflexivity.
      - rewrite app_nil_r, split_ws_nl, line3_split. reflexivity. }
    split.
    + cbn [forallb]. rewrite NB, nobreak_app, line3_nobreak. rewrite Ef. destruct sel; [|reflexivity].
      unfold flags_image. cbn [map]. destruct (nth 0 _ true), (nth 1 _ true), (nth 2 _ true); reflexivity.
    + set (txt := join [sp] (map (num_text A p) [x; y; z]) ++ f) in *. clearbody txt.
      exists ((capitalize (ws_specie A w), v', flags_image (ws_selective A w)) :: raw). cbn [length map]. split; [congruence|]. split; constructor; auto.
      exists (rr x), (rr y), (rr z). split; [eapply three_numbers_line; exact ES|]. cbn [fst snd]. rewrite !mul_r. split; [exact E|].
      destruct sel.
      * unfold flags3. rewrite ES. unfold flags_image. cbn [map app py_nth nth_error of_option bind]. rewrite !flag_letter_read. reflexivity.
      * specialize (NF eq_refl). apply Forall_inv in NF. rename NF into N. clear -N. unfold flags_image. cbn [map].
        assert (forall i, nth i (ws_selective A w) true = true) as K.
        { intros i. destruct (nth_in_or_default i (ws_selective A w) true) as [J|J]; auto.
          destruct (nth i (ws_selective A w) true); auto. exfalso. assert (existsb negb (ws_selective A w) = true) as Q by (apply existsb_exists; exists false; auto). congruence. }
        rewrite !K. reflexivity.
Qed.
(** the lines of velocities *)
Lemma velocities_read wd cell out vs : square3 cell -> invertible wd cell ->
  mapM (velocity_text A p wd cell) out = Ok vs ->
  forallb nobreak vs = true /\ Forall (fun t => is_number (hd [] (split_ws (nls t))) = true) vs /\ Forall (fun t => split_ws (nls t) <> []) vs /\ exists vb, length vb = length out /\
    mapM (fun l => let* v := num3 A l (fun x => x) in if wd then Ok v else to_direct A v (map (map rr) cell)) (map nls vs) = Ok vb /\
    Forall2 (fun w v' => opt_back (vec_back wd cell) (ws_velocities A w) (Some v')) out vb.
Proof.
  intros S I. revert vs. induction out as [|w out IH]; intros vs H; cbn [mapM] in H.
  - inversion H. repeat split; auto. exists []. repeat constructor.
  - apply bind_ok in H as [t [H1 H]]. apply bind_ok in H as [vs' [H2 H]]. inversion H; subst. clear H.
    destruct (IH vs' H2) as [NB [NN [NE (vb & L & F1 & F2)]]]. clear IH. unfold velocity_text in H1.
    destruct (ws_velocities A w) as [u|] eqn:EU; [|discriminate]. apply bind_ok in H1 as [v [H1 H3]].
    destruct (back_exists _ _ _ _ _ S I H1 H3) as (v' & x & y & z & VB & -> & E).
    assert (split_ws (nls (join [sp] (map (num_text A p) [x; y; z]))) = [tok x; tok y; tok z]) as ES.
    { unfold nls. rewrite split_ws_nl, line3_split. reflexivity. }
    split; [cbn [forallb]; rewrite NB, line3_nobreak; reflexivity|]. split; [constructor; auto; rewrite ES; apply (fo_number A p rr FO)|].
    split; [constructor; auto; rewrite ES; discriminate|].
    exists (v' :: vb). split; [cbn [length]; congruence|]. split.
    + set (txt := join [sp] (map (num_text A p) [x; y; z])) in *. clearbody txt. cbn [map mapM]. assert (num3 A (nls txt) (fun x0 => x0) = Ok [rr x; rr y; rr z]) as ->.
      { apply num3_ok. exists (rr x), (rr y), (rr z). split; auto. eapply three_numbers_line. exact ES. }
      cbn [bind]. destruct wd; [rewrite E|rewrite E]; cbn [bind]; rewrite F1; reflexivity.
    + constructor; auto. rewrite EU. exact VB.
Qed.
(** the lines of predictors *)
Lemma predictors_read out vs : mapM (predictor_text A p) out = Ok vs ->
  forallb nobreak vs = true /\ Forall (fun t => is_number (hd [] (split_ws (nls t))) = true) vs /\ Forall (fun t => split_ws (nls t) <> []) vs /\ exists vb, length vb = length out /\
    mapM (fun l => num3 A l (fun x => x)) (map nls vs) = Ok vb /\
    Forall2 (fun w v' => opt_back (fun v v' => v' = image v) (ws_predictors A w) (Some v')) out vb.
Proof.
  revert vs. induction out as [|w out IH]; intros vs H; cbn [mapM] in H.
  - inversion H. repeat split; auto. exists []. repeat constructor.
  - apply bind_ok in H as [t [H1 H]]. apply bind_ok in H as [vs' [H2 H]]. inversion H; subst. clear H.
    destruct (IH vs' H2) as [NB [NN [NE (vb & L & F1 & F2)]]]. clear IH. unfold predictor_text in H1.
    destruct (ws_predictors A w) as [u|] eqn:EU; [|discriminate]. apply line3_ok in H1 as (x & y & z & r & -> & ->).
    assert (split_ws (nls (join [sp] (map (num_text A p) [x; y; z]))) = [tok x; tok y; tok z]) as ES.
    { unfold nls. rewrite split_ws_nl, line3_split. reflexivity. }
    split; [cbn [forallb]; rewrite NB, line3_nobreak; reflexivity|]. split; [constructor; auto; rewrite ES; apply (fo_number A p rr FO)|].
    split; [constructor; auto; rewrite ES; discriminate|].
    exists ([rr x; rr y; rr z] :: vb). split; [cbn [length]; congruence|]. split.
    + set (txt := join [sp] (map (num_text A p) [x; y; z])) in *. clearbody txt. cbn [map mapM]. assert (num3 A (nls txt) (fun x0 => x0) = Ok [rr x; rr y; rr z]) as ->.
      { apply num3_ok. exists (rr x), (rr y), (rr z). split; auto. eapply three_numbers_line. exact ES. }
      cbn [bind]. rewrite F1. reflexivity.
    + constructor; auto. rewrite EU. reflexivity.
Qed.

(** ** The whole text *)
Definition has_sel (ws : list (wsite A)) : bool := existsb (fun s => existsb negb (ws_selective A s)) ws.
Definition has_vel (ws : list (wsite A)) : bool := existsb (fun s => is_some (ws_velocities A s)) ws.
Definition has_pre (ws : list (wsite A)) : bool := existsb (fun s => is_some (ws_predictors A s)) ws.
Definition row_text (r : vec) : str := join [sp] (map (num_text A p) r).
Lemma write_lines_inv conserve wd es ls : write_lines A p conserve wd es = Ok ls ->
  exists co cell l sites out gs c pos vel pre,
    pholds es "comment" co /\ pholds es "unitcell" (PMat A cell) /\ square3 cell /\ pholds es "sites" (PSites A l) /\
    mapM (wsite_of A) l = Ok sites /\ group_sites A conserve sites = (out, gs) /\ comment_text A gs co = Ok c /\
    mapM (position_text A p wd (has_sel sites) cell) out = Ok pos /\
    (if has_vel sites then exists v, mapM (velocity_text A p wd cell) out = Ok v /\ vel = label wd :: v else vel = []) /\
    (if has_pre sites then exists v, mapM (predictor_text A p) out = Ok v /\ pre = [] :: v else pre = []) /\
    ls = [c; num_text A p (n1 A)] ++ map row_text cell ++ [species_text gs; counts_text gs]
         ++ (if has_sel sites then [lit "Selective dynamics"] else []) ++ [label wd] ++ pos ++ vel ++ pre.
Proof.
  unfold write_lines. intros H. apply bind_ok in H as [[] [V H]].
  apply bind_ok in H as [co [H1 H]]. apply bind_ok in H as [u [H2 H]]. apply bind_ok in H as [cell [H3 H]].
  apply bind_ok in H as [s [H4 H]]. apply bind_ok in H as [l [H5 H]]. apply bind_ok in H as [sites [H6 H]].
  fold (has_sel sites) in H. fold (has_vel sites) in H. fold (has_pre sites) in H.
  destruct (group_sites A conserve sites) as [out gs] eqn:G.
  apply bind_ok in H as [c [H7 H]]. apply bind_ok in H as [rows [H8 H]]. apply bind_ok in H as [pos [H9 H]].
  apply bind_ok in H as [vel [H10 H]]. apply bind_ok in H as [pre [H11 H]].
  assert (u = PMat A cell) as -> by (destruct u; try discriminate; inversion H3; auto).
  assert (s = PSites A l) as -> by (destruct s; try discriminate; inversion H5; auto).
  assert (square3 cell) as S.
  { unfold validate in V. apply bind_ok in V as [[] [_ V]]. apply bind_ok in V as [[] [V _]]. unfold check_unitcell, arg_or in V.
    rewrite H2 in V. cbn [bind] in V. unfold square3. destruct (cell_ok A (PMat A cell)); [auto|discriminate]. }
  unfold pkey in *. apply of_option_ok in H1. apply of_option_ok in H2. apply of_option_ok in H4.
  exists co, cell, l, sites, out, gs, c, pos, vel, pre. unfold pholds. repeat (split; [assumption|]). split; [|split].
  - destruct (has_vel sites); [apply bind_ok in H10 as [v [E1 E2]]; inversion E2; eauto|inversion H10; auto].
  - destruct (has_pre sites); [apply bind_ok in H11 as [v [E1 E2]]; inversion E2; eauto|inversion H11; auto].
  - inversion H. do 2 f_equal. f_equal.
    destruct (square3_shape cell S) as (a & b & c' & d & e & f & g & h & k & ->). inversion H8. reflexivity.
Qed.

Lemma slice_mid {T} (a b c : list T) : firstn (length b) (skipn (length a) (a ++ b ++ c)) = b.
Proof. rewrite skipn_app, skipn_all, Nat.sub_diag. cbn [app skipn]. rewrite firstn_app, firstn_all, Nat.sub_diag. cbn. rewrite app_nil_r. reflexivity. Qed.
Lemma nth_after {T} (a b c : list T) k j : length b + length a = k -> nth_error (a ++ b ++ c) (k + j) = nth_error c j.
Proof. intros <-. rewrite app_assoc, nth_error_app2; rewrite app_length; [f_equal; lia|lia]. Qed.
Lemma row_number_line r : number_line A (nls (row_text r)) (map rr r).
Proof.
  unfold number_line, nls, row_text. rewrite split_ws_nl.
  assert (split_ws (join [sp] (map (num_text A p) r)) = map tok r) as ->.
  { induction r as [|x r IH]; auto. cbn [map]. destruct r as [|y r]; [apply num_text_split|]. cbn [map] in *. rewrite join_cons2, split_ws_sp, num_text_split, IH. reflexivity. }
  induction r; constructor; auto. apply tok_parse.
Qed.
Lemma row_nobreak r : nobreak (row_text r) = true.
Proof. apply nobreak_join; auto. induction r; auto. cbn [map forallb]. rewrite num_text_nobreak. auto. Qed.
Lemma existsb_perm {T} (f : T -> bool) a b : Permutation a b -> existsb f a = existsb f b.
Proof. induction 1; cbn [existsb]; try congruence. rewrite !orb_assoc, (orb_comm (f y)). reflexivity. Qed.
Lemma existsb_false_Forall {T} (f : T -> bool) l : existsb f l = false -> Forall (fun x => f x = false) l.
Proof. induction l; cbn [existsb]; constructor; apply orb_false_iff in H; tauto. Qed.
Lemma is_numbers_nl_false t : (split_ws t = [] \/ forallb is_number (split_ws t) = false) -> is_numbers (nls t) = false.
Proof.
  intros H. destruct (is_numbers (nls t)) eqn:E; auto. apply is_numbers_tokens in E as [E1 E2]. unfold nls in *. rewrite split_ws_nl in *. destruct H; congruence.
Qed.
Lemma groups_tokens c ws out gs : group_sites A c ws = (out, gs) -> Forall (fun w => is_token (ws_specie A w) = true) ws -> Forall (fun g => is_token (fst g) = true) gs.
Proof.
  intros G F. apply group_any in G as [E [P Pm]]. apply Forall_forall. intros g Hg.
  assert (In (fst g) (expand gs)) as K.
  { unfold expand. apply in_flat_map. exists g. split; auto. rewrite Forall_forall in P. specialize (P g Hg). destruct (snd g); [lia|left; auto]. }
  rewrite <- E in K. apply in_map_iff in K as [w [<- Hw]]. rewrite Forall_forall in F. apply F. eapply Permutation_in; eauto.
Qed.

(** what is read back as the comment from the line written *)
Definition comment_read_back (c : str) : str := strip (filter (fun x => negb (aeqb x "#")) (nls c)).

(** lia without the boolean hypotheses *)
Ltac qlia := repeat match goal with
  | H : @eq bool _ _ |- _ => clear H | H : _ \/ _ |- _ => clear H | H : Forall _ _ |- _ => clear H | H : @eq (res _) _ _ |- _ => clear H
  | H : Forall2 _ _ _ |- _ => clear H | H : if _ then _ else _ |- _ => clear H | H : _ -> _ |- _ => clear H end; lia.
Ltac fixcell SCM scell := match goal with |- context [@map ?X ?Y (map ?f) ?m] => lazymatch m with _ :: _ => replace (@map X Y (map f) m) with scell by (symmetry; exact SCM) end end.
Theorem read_written conserve wd es ls cell l sites out gs :
  write_lines A p conserve wd es = Ok ls -> pholds es "unitcell" (PMat A cell) -> pholds es "sites" (PSites A l) ->
  mapM (wsite_of A) l = Ok sites -> group_sites A conserve sites = (out, gs) ->
  Forall (fun w => is_token (ws_specie A w) = true) sites ->
  (sites = [] \/ Exists (fun w => is_number (capitalize (ws_specie A w)) = false) sites) ->
  nobreak (hd [] ls) = true -> invertible wd cell ->
  exists ss, forallb nobreak ls = true /\
    from_list A (map nls ls) = Ok [(lit "comment", PStr A (comment_read_back (hd [] ls))); (lit "unitcell", PMat A (map (map rr) cell)); (lit "sites", PSites A (map (SSite A) ss))] /\
    Forall2 (site_back wd cell) out ss.
Proof.
  intros W HU HL HW HG TS NN NC I.
  destruct (write_lines_inv _ _ _ _ W) as (co & cell2 & l2 & sites2 & out2 & gs2 & c & pos & vel & pre & HC & HU2 & SQ & HL2 & HW2 & HG2 & CT & HP & HV & HR & E).
  unfold pholds in *. rewrite HU in HU2. inversion HU2. subst cell2. rewrite HL in HL2. inversion HL2. subst l2. rewrite HW in HW2. inversion HW2. subst sites2.
  rewrite HG in HG2. inversion HG2. subst out2 gs2. clear HU2 HL2 HW2 HG2.
  pose proof (group_any A _ _ _ _ HG) as [EX [GP PM]]. pose proof (groups_tokens _ _ _ _ HG TS) as GT.
  assert (has_sel sites = has_sel out) as ES by (apply existsb_perm; symmetry; auto).
  assert (has_vel sites = has_vel out) as EV by (apply existsb_perm; symmetry; auto).
  assert (has_pre sites = has_pre out) as EP by (apply existsb_perm; symmetry; auto).
  destruct (positions_read wd (has_sel sites) cell out pos SQ I HP) as [NBP (raw & LR & FR & FB)].
  { intros K. rewrite ES in K. apply existsb_false_Forall in K. exact K. }
  assert (length pos = length out) as LP by (eapply mapM_length; eauto).
  destruct (square3_shape cell SQ) as (a1 & a2 & a3 & b1 & b2 & b3 & c1 & c2 & c3 & ECell).
  rewrite E in NC. cbn [app hd] in NC.
  (* the counts *)
  set (atoms := map (fun g : str * nat => Z.of_nat (snd g)) gs).
  assert (total atoms = Z.of_nat (length out)) as ET.
  { unfold atoms. rewrite total_groups, <- EX, map_length. reflexivity. }
  assert (Forall (fun a => 0 < a)%Z atoms) as AP.
  { unfold atoms. clear -GP. induction GP; constructor; auto. qlia. }
  set (spec := map (fun g : str * nat => capitalize (fst g)) gs).
  assert (exists st', species_run spec atoms (Z.to_nat (total atoms)) (0, 1%Z) = Ok (map (fun r => fst (fst r)) raw, st')) as [st' SR].
  { destruct (species_run_fwd spec atoms AP) as [st' R]; [unfold spec, atoms; rewrite !map_length; auto|]. exists st'. rewrite R. do 2 f_equal.
    assert (announced spec atoms = map capitalize (expand gs)) as ->.
    { rewrite <- (expand_map capitalize gs), <- announced_expand. unfold spec, atoms. rewrite !map_map. reflexivity. }
    rewrite <- EX. clear -FB. induction FB as [|w r out raw (_ & _ & K) F IH]; auto. cbn [map]. rewrite IH, K. reflexivity. }
  (* velocities *)
  assert (exists vb, forallb nobreak vel = true /\ if has_vel sites then exists v, vel = label wd :: v /\ Forall (fun t => is_number (hd [] (split_ws (nls t))) = true) v /\ Forall (fun t => split_ws (nls t) <> []) v /\ length v = length out /\ length vb = length out /\
     mapM (fun l => let* v := num3 A l (fun x => x) in if wd then Ok v else to_direct A v (map (map rr) cell)) (map nls v) = Ok vb /\
     Forall2 (fun w v' => opt_back (vec_back wd cell) (ws_velocities A w) (Some v')) out vb
     else vel = [] /\ vb = []) as (vb & NBV & HVb).
  { destruct (has_vel sites).
    - destruct HV as (v & HV & ->). assert (length v = length out) as LV by (eapply mapM_length; eauto).
      destruct (velocities_read wd cell out v SQ I HV) as [N [N1 [N2 (vb & L & F1 & F2)]]]. exists vb. split; [cbn [forallb]; rewrite N; destruct wd; reflexivity|]. exists v. auto 10.
    - exists []. rewrite HV. auto. }
  (* predictors *)
  assert (exists pb, forallb nobreak pre = true /\ if has_pre sites then exists v, pre = [] :: v /\ Forall (fun t => is_number (hd [] (split_ws (nls t))) = true) v /\ Forall (fun t => split_ws (nls t) <> []) v /\ length v = length out /\ length pb = length out /\
     mapM (fun l => num3 A l (fun x => x)) (map nls v) = Ok pb /\
     Forall2 (fun w v' => opt_back (fun v v' => v' = image v) (ws_predictors A w) (Some v')) out pb
     else pre = [] /\ pb = []) as (pb & NBR & HPb).
  { destruct (has_pre sites).
    - destruct HR as (v & HR & ->). assert (length v = length out) as LV by (eapply mapM_length; eauto).
      destruct (predictors_read out v HR) as [N [N1 [N2 (pb & L & F1 & F2)]]]. exists pb. split; [exact N|]. exists v. auto 10.
    - exists []. rewrite HR. auto. }
  assert (forallb nobreak ls = true) as NB.
  { rewrite E, ECell. cbn [app map]. destruct (has_sel sites); cbn [app forallb]; rewrite !forallb_app;
    rewrite NC, num_text_nobreak, !row_nobreak, species_nobreak, counts_nobreak, NBP, NBV, NBR by auto; destruct wd; reflexivity. }
  (* the header *)
  set (hdr := map nls ([c; num_text A p (n1 A)] ++ map row_text cell ++ [species_text gs; counts_text gs]
         ++ (if has_sel sites then [lit "Selective dynamics"] else []) ++ [label wd])).
  remember (if has_sel sites then 9 else 8) as first eqn:Efirst.
  assert (length hdr = first) as LH.
  { rewrite Efirst. unfold hdr. rewrite ECell. destruct (has_sel sites); reflexivity. }
  assert (map nls ls = hdr ++ map nls pos ++ map nls vel ++ map nls pre) as EL.
  { rewrite E. unfold hdr. rewrite <- !map_app. f_equal. rewrite <- !app_assoc. reflexivity. }
  set (vo := if has_vel sites then Some vb else None). set (po := if has_pre sites then Some pb else None).
  remember (length out) as n eqn:En.
  assert (out = [] -> has_vel sites = false /\ has_pre sites = false) as NE.
  { intros ->. rewrite EV, EP. auto. }
  set (scell := map (map rr) cell).
  assert (map (map (nmul A (n1 A))) scell = scell) as MC.
  { unfold scell. rewrite map_map. apply map_ext. intros r. rewrite map_map. apply map_ext. intros x. apply mul_l. }
  set (rest := map nls vel ++ map nls pre).
  assert (EL2 : map nls ls = hdr ++ map nls pos ++ rest) by (rewrite EL; reflexivity).
  assert (LN : forall j, nth_error (map nls ls) (n + first + j) = nth_error rest j).
  { intros j. rewrite EL2. apply nth_after. rewrite map_length, LP, LH. reflexivity. }
  assert (LL : length (map nls ls) = n + first + length rest).
  { rewrite EL2, !app_length, map_length, LP, LH. rewrite Nat.add_assoc, (Nat.add_comm first n). reflexivity. }
  assert (read_tail_mode (map nls ls) (total atoms + Z.of_nat first) wd = Ok (has_vel sites, if has_vel sites then wd else wd, if has_vel sites then false else has_pre sites)) as RT.
  { rewrite ET. replace (Z.of_nat n + Z.of_nat first)%Z with (Z.of_nat (n + first + 0)) by qlia. unfold read_tail_mode. rewrite LL.
    replace (Z.of_nat (n + first + 0) + 1)%Z with (Z.of_nat (n + first + 1)) by qlia. rewrite !zat_nat.
    assert (0 < n \/ n = 0) as [Hn|Hn] by qlia.
    2:{ destruct NE as [N1 N2]; [destruct out; [auto|cbn in *; qlia]|]. rewrite N1, N2 in *. destruct HVb as [-> _]. destruct HPb as [-> _].
        cbn [rest map app length]. destruct (Z.ltb_spec (Z.of_nat (n + first + 0)) (Z.of_nat (n + first + 0))); [qlia|]. cbn [bind].
        destruct (Z.ltb_spec (Z.of_nat (n + first + 1)) (Z.of_nat (n + first + 0))); [qlia|]. reflexivity. }
    destruct (has_vel sites).
    - destruct HVb as (v & -> & N1 & N2 & LV & _). destruct v as [|v0 v]; [cbn in LV; qlia|]. pose proof (Forall_inv N1) as Q1. pose proof (Forall_inv N2) as Q2. cbv beta in Q1, Q2.
      assert (length rest = S (S (length v + length pre))) as LRs by (unfold rest; rewrite app_length, !map_length; reflexivity).
      rewrite LRs. destruct (Z.ltb_spec (Z.of_nat (n + first + 0)) (Z.of_nat (n + first + S (S (length v + length pre))))); [|qlia].
      destruct (Z.ltb_spec (Z.of_nat (n + first + 1)) (Z.of_nat (n + first + S (S (length v + length pre))))); [|qlia].
      unfold py_nth at 1. rewrite LN. unfold rest at 1. cbn [map app nth_error of_option bind].
      assert (exists r, nls (label wd) = (if wd then "D" else "C")%char :: r) as [r ->] by (destruct wd; eexists; reflexivity).
      unfold py_nth at 1. cbn [nth_error of_option bind].
      assert ((if aeqb (lower1 (if wd then "D"%char else "C"%char)) "d" then Ok (true, wd, false)
               else if aeqb (lower1 (if wd then "D"%char else "C"%char)) "c" then Ok (true, false, false)
               else Ok (false, wd, blank_line ((if wd then "D"%char else "C"%char) :: r))) = Ok (true, wd, false)) as -> by (destruct wd; reflexivity).
      cbn [bind]. unfold py_nth at 1. rewrite LN. unfold rest. cbn [map app nth_error of_option bind].
      destruct (split_ws (nls v0)) as [|t0 ts] eqn:Es; [congruence|]. unfold py_nth. cbn [nth_error of_option bind hd] in *. rewrite Q1. reflexivity.
    - destruct HVb as [-> ->]. destruct (has_pre sites).
      + destruct HPb as (v & -> & N1 & N2 & LV & _). destruct v as [|v0 v]; [cbn in LV; qlia|]. pose proof (Forall_inv N1) as Q1. pose proof (Forall_inv N2) as Q2. cbv beta in Q1, Q2.
        assert (length rest = S (S (length v))) as LRs by (unfold rest; cbn [map app length]; rewrite map_length; reflexivity).
        rewrite LRs. destruct (Z.ltb_spec (Z.of_nat (n + first + 0)) (Z.of_nat (n + first + S (S (length v))))); [|qlia].
        destruct (Z.ltb_spec (Z.of_nat (n + first + 1)) (Z.of_nat (n + first + S (S (length v))))); [|qlia].
        unfold py_nth at 1. rewrite LN. unfold rest at 1. cbn [map app nth_error of_option bind].
        change (nls []) with [nl]. unfold py_nth at 1. cbn [nth_error of_option bind].
        change (aeqb (lower1 nl) "d") with false. change (aeqb (lower1 nl) "c") with false. change (blank_line [nl]) with true. cbv iota. cbn [bind].
        unfold py_nth at 1. rewrite LN. unfold rest. cbn [map app nth_error of_option bind].
        destruct (split_ws (nls v0)) as [|t0 ts] eqn:Es; [congruence|]. unfold py_nth. cbn [nth_error of_option bind hd] in *. rewrite Q1. reflexivity.
      + destruct HPb as [-> _]. cbn [rest map app length]. destruct (Z.ltb_spec (Z.of_nat (n + first + 0)) (Z.of_nat (n + first + 0))); [qlia|]. cbn [bind].
        destruct (Z.ltb_spec (Z.of_nat (n + first + 1)) (Z.of_nat (n + first + 0))); [qlia|]. reflexivity. }
  assert (reading A (map nls ls) [(lit "comment", PStr A (comment_read_back c)); (lit "unitcell", PMat A scell); (lit "sites", PSites A (build_sites A raw vo po))]
    (nls c) (nls (num_text A p (n1 A))) (nls (row_text [a1; a2; a3])) (nls (row_text [b1; b2; b3])) (nls (row_text [c1; c2; c3])) (n1 A)
    (map rr [a1; a2; a3]) (map rr [b1; b2; b3]) (map rr [c1; c2; c3]) spec atoms (has_sel sites) wd first raw
    (has_vel sites) (if has_vel sites then wd else wd) (if has_vel sites then false else has_pre sites) vo po) as RD.
  { assert ([map rr [a1; a2; a3]; map rr [b1; b2; b3]; map rr [c1; c2; c3]] = scell) as SC by (unfold scell; rewrite ECell; reflexivity).
    assert (SCM : map (map (nmul A (n1 A))) [map rr [a1; a2; a3]; map rr [b1; b2; b3]; map rr [c1; c2; c3]] = scell) by (rewrite SC; exact MC).
    assert (EH : exists tl, map nls ls = nls c :: nls (num_text A p (n1 A)) :: nls (row_text [a1; a2; a3]) :: nls (row_text [b1; b2; b3]) :: nls (row_text [c1; c2; c3])
      :: nls (species_text gs) :: nls (counts_text gs) :: (if has_sel sites then [nls (lit "Selective dynamics")] else []) ++ nls (label wd) :: tl).
    { exists (map nls pos ++ rest). rewrite EL2. unfold hdr. rewrite ECell. destruct (has_sel sites); reflexivity. }
    destruct EH as [tl EH].
    constructor.
    - rewrite EH. reflexivity.
    - rewrite EH. reflexivity.
    - exists (tok (n1 A)), []. unfold nls. rewrite split_ws_nl, num_text_split. split; auto. rewrite tok_parse, (fo_one A p rr FO). reflexivity.
    - apply (uo_neg A UO).
    - rewrite EH. split; [reflexivity|apply row_number_line].
    - rewrite EH. split; [reflexivity|apply row_number_line].
    - rewrite EH. split; [reflexivity|apply row_number_line].
    - rewrite !map_length. auto.
    - exists (nls (species_text gs)). rewrite EH. split; [reflexivity|]. split; [|unfold nls; rewrite split_ws_nl; apply species_split; auto].
      apply is_numbers_nl_false. rewrite species_split by auto. destruct NN as [NN|NN].
      + left. assert (out = []) as Eo by (subst sites; apply Permutation_nil, Permutation_sym; auto). destruct gs as [|g gs']; auto.
        pose proof (Forall_inv GP) as G0. cbv beta in G0. rewrite Eo in EX. cbn [expand flat_map map] in EX. destruct (snd g); [qlia|discriminate].
      + right. apply Exists_exists in NN as [w [Hw Nw]]. apply Permutation_sym in PM. apply (Permutation_in w PM) in Hw.
        assert (In (ws_specie A w) (expand gs)) as Q by (rewrite <- EX; apply in_map; auto).
        unfold expand in Q. apply in_flat_map in Q as [g [Hg Q]]. apply repeat_spec in Q.
        destruct (forallb is_number (map (fun g => capitalize (fst g)) gs)) eqn:FN; auto. rewrite forallb_forall in FN.
        rewrite <- Nw. symmetry. rewrite Q. apply FN. apply in_map_iff. exists g. auto.
    - exists (nls (counts_text gs)). rewrite EH. split; [reflexivity|]. unfold nls. rewrite split_ws_nl, counts_split. unfold atoms.
      clear. induction gs; constructor; auto. apply parse_int_str.
    - unfold layout, starts. rewrite Efirst, EH. destruct (has_sel sites).
      + exists "S"%char. split; [eexists; reflexivity|]. split; [reflexivity|]. split; [reflexivity|]. exists (if wd then "D" else "C")%char. destruct wd; split; try reflexivity; eexists; reflexivity.
      + exists (if wd then "D" else "C")%char. destruct wd; (split; [eexists; reflexivity|]); (split; [discriminate|]); auto.
    - eapply read_sites_intro; [|..|exact SR]; rewrite ET, Nat2Z.id; [exact LR|].
      rewrite EL2, <- LH. replace n with (length (map nls pos)) by (rewrite map_length; auto). rewrite slice_mid. fixcell SCM scell. exact FR.
    - exact RT.
    - fixcell SCM scell.
      replace (Z.to_nat (total atoms + Z.of_nat first + 1)) with (n + first + 1) by qlia. replace (Z.to_nat (total atoms)) with n by qlia.
      unfold vo, po. destruct (has_vel sites).
      + destruct HVb as (v & -> & _ & _ & LV & LVb & MV & _). exists vb. split; auto.
        assert (ELv : map nls ls = (hdr ++ map nls pos ++ [nls (label wd)]) ++ map nls v ++ map nls pre).
        { rewrite EL2. unfold rest. cbn [map]. rewrite <- !app_assoc. reflexivity. }
        assert (length (hdr ++ map nls pos ++ [nls (label wd)]) = n + first + 1) as LHv.
        { rewrite !app_length, map_length, LP, LH. cbn [length]. qlia. }
        assert (firstn n (skipn (n + first + 1) (map nls ls)) = map nls v) as SL.
        { rewrite ELv, <- LHv. replace n with (length (map nls v)) by (rewrite map_length; auto). apply slice_mid. }
        split.
        * unfold read_velocities.
          rewrite (range_eq (fun l => let* v := num3 A l (fun x => x) in if wd then Ok v else to_direct A v scell)); rewrite SL; [exact MV|rewrite map_length; auto].
        * rewrite ET. replace (Z.of_nat n + (Z.of_nat n + Z.of_nat first + 1))%Z with (Z.of_nat (n + (n + first + 1))) by qlia.
          unfold read_predictors. replace (Z.of_nat (n + (n + first + 1)) + 1)%Z with (Z.of_nat (n + (n + first + 1) + 1)) by qlia. rewrite !zat_nat, Nat2Z.id.
          assert (LNp : forall j, nth_error (map nls ls) (n + (n + first + 1) + j) = nth_error (map nls pre) j).
          { intros j. rewrite ELv. apply nth_after. rewrite LHv, map_length, LV. reflexivity. }
          assert (LLp : length (map nls ls) = n + (n + first + 1) + length pre).
          { rewrite ELv, app_length, LHv, app_length, !map_length, LV. rewrite Nat.add_assoc, (Nat.add_comm _ n). reflexivity. }
          rewrite LLp. replace (py_nth (map nls ls) (n + (n + first + 1))) with (py_nth (map nls pre) 0) by (unfold py_nth; rewrite <- LNp; do 2 f_equal; qlia).
          destruct (has_pre sites).
          -- destruct HPb as (q & -> & N1 & N2 & LQ & LPb & MP & _).
             destruct (Z.ltb_spec (Z.of_nat (n + (n + first + 1))) (Z.of_nat (n + (n + first + 1) + length ([] :: q)))); [|cbn [length] in *; qlia].
             unfold py_nth at 1. cbn [map nth_error of_option bind]. change (blank_line (nls [])) with true. cbv iota.
             unfold py_nth at 1. rewrite LNp. cbn [map nth_error].
             assert (exists q0 q', q = q0 :: q') as (q0 & q' & ->).
             { destruct q; [|eauto]. cbn in LQ. destruct NE as [K _]; [destruct out; [auto|cbn in *; qlia]|]. exfalso. rewrite EV in K.
               assert (out = []) as -> by (destruct out; [auto|cbn in *; qlia]). cbn in *. destruct v; [|subst n; discriminate]. rewrite <- EV in K. discriminate. }
             pose proof (Forall_inv N1) as Q1. pose proof (Forall_inv N2) as Q2. cbv beta in Q1, Q2. cbn [map of_option bind]. destruct (split_ws (nls q0)) as [|t0 ts] eqn:Es; [congruence|]. unfold py_nth at 1. cbn [nth_error of_option bind hd] in *.
             rewrite Q1. assert (firstn n (skipn (n + (n + first + 1) + 1) (map nls ls)) = map nls (q0 :: q')) as SLp.
             { assert (ELp : map nls ls = ((hdr ++ map nls pos ++ [nls (label wd)]) ++ map nls v ++ [nls []]) ++ map nls (q0 :: q') ++ []).
               { rewrite ELv. cbn [map]. rewrite app_nil_r, <- !app_assoc. reflexivity. }
               assert (length ((hdr ++ map nls pos ++ [nls (label wd)]) ++ map nls v ++ [nls []]) = n + (n + first + 1) + 1) as LHp.
               { rewrite app_length, LHv, app_length, map_length, LV. cbn [length]. qlia. }
               rewrite ELp, <- LHp. replace n with (length (map nls (q0 :: q'))) by (rewrite map_length; auto). apply slice_mid. }
             unfold read_block. rewrite (range_eq (fun l => num3 A l (fun x => x))); rewrite SLp; [rewrite MP; reflexivity|rewrite map_length; auto].
          -- destruct HPb as [-> _]. cbn [length]. destruct (Z.ltb_spec (Z.of_nat (n + (n + first + 1))) (Z.of_nat (n + (n + first + 1) + 0))); [qlia|reflexivity].
      + split; auto. destruct HVb as [-> ->]. destruct (has_pre sites); [|reflexivity].
        destruct HPb as (q & -> & N1 & N2 & LQ & LPb & MP & _). exists pb. split; auto.
        assert (firstn n (skipn (n + first + 1) (map nls ls)) = map nls q) as SLp.
        { assert (ELp : map nls ls = (hdr ++ map nls pos ++ [nls []]) ++ map nls q ++ []).
          { rewrite EL2. unfold rest. cbn [map app]. rewrite app_nil_r, <- !app_assoc. reflexivity. }
          assert (length (hdr ++ map nls pos ++ [nls []]) = n + first + 1) as LHp.
          { rewrite !app_length, map_length, LP, LH. cbn [length]. qlia. }
          rewrite ELp, <- LHp. replace n with (length (map nls q)) by (rewrite map_length; auto). apply slice_mid. }
        unfold read_block. rewrite (range_eq (fun l => num3 A l (fun x => x))); rewrite SLp; [exact MP|rewrite map_length; auto].
    - fixcell SCM scell. reflexivity. }
  exists (map (fun v => match v with SSite _ s => s | _ => Site A [] [] None None None true end) (build_sites A raw vo po)).
  split; [exact NB|]. split.
  - apply from_list_intro in RD. rewrite RD. rewrite E. cbn [app hd]. do 6 f_equal.
    rewrite map_map. rewrite <- (map_id (build_sites A raw vo po)) at 1. apply map_ext_in. intros v Hv.
    pose proof (build_direct A raw vo po) as BD. rewrite Forall_forall in BD. destruct (BD v Hv) as [s [-> _]]. reflexivity.
  - assert (forall {X Y} (R : X -> Y -> Prop) a b, Forall2 R a b -> forall i x, nth_error a i = Some x -> exists y, nth_error b i = Some y /\ R x y) as FN.
    { clear. intros X Y R a b F. induction F as [|x y a b Hxy F IH]; intros [|i] x0 H; cbn in *; try discriminate; [inversion H; subst; eauto|auto]. }
    assert (forall {X Y} (R : X -> Y -> Prop) a b, length a = length b -> (forall i x, nth_error a i = Some x -> exists y, nth_error b i = Some y /\ R x y) -> Forall2 R a b) as NF.
    { clear. intros X Y R a. induction a as [|x a IH]; intros [|y b] L H; cbn in L; try discriminate; constructor.
      - destruct (H 0 x eq_refl) as [y' [E Q]]. inversion E; subst; auto.
      - apply IH; [congruence|]. intros i x' Hx. apply (H (S i) x' Hx). }
    apply NF; [rewrite map_length, build_sites_length; congruence|]. intros i w Hw.
    destruct (FN _ _ _ _ _ FB i w Hw) as [[[s q] f] [Hr (VB & FI & SI)]]. cbn [fst snd] in *.
    rewrite nth_error_map, build_sites_nth, Hr. cbn [option_map fst snd]. eexists. split; [reflexivity|].
    unfold site_back, Site. cbn [si_specie si_direct si_selective si_position si_velocities si_predictors].
    split; [rewrite SI; apply lower_capitalize|]. split; [reflexivity|]. split; [auto|]. split; [exact VB|]. split.
    + unfold vo. destruct (has_vel sites) eqn:HVS.
      * destruct HVb as (v & _ & _ & _ & _ & LVb & _ & F). destruct (FN _ _ _ _ _ F i w Hw) as [v' [Hv Q]]. cbn [opt_nth]. rewrite Hv. exact Q.
      * clear HVS; rename EV into HVS; symmetry in HVS. apply existsb_false_Forall in HVS. rewrite Forall_forall in HVS. specialize (HVS w (nth_error_In _ _ Hw)).
        cbn [opt_nth]. destruct (ws_velocities A w); [discriminate|exact Logic.I].
    + unfold po. destruct (has_pre sites) eqn:HPS.
      * destruct HPb as (v & _ & _ & _ & _ & LPb & _ & F). destruct (FN _ _ _ _ _ F i w Hw) as [v' [Hv Q]]. cbn [opt_nth]. rewrite Hv. exact Q.
      * clear HPS; rename EP into HPS; symmetry in HPS. apply existsb_false_Forall in HPS. rewrite Forall_forall in HPS. specialize (HPS w (nth_error_In _ _ Hw)).
        cbn [opt_nth]. destruct (ws_predictors A w); [discriminate|exact Logic.I].
Qed.
End RT.
