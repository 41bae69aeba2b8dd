(** A document of two atoms, three ionic steps, two k-points, two bands and two spins meets the
    hypotheses of the theorems of Props_Vasprun.v and Props_VasprunFile.v. *)
From Coq Require Import Ascii String List NArith ZArith Bool Lia.
From Verif Require Import PyBase PyStrLemmas PyNum UtilsModel LineModel KpointsCodes OutcarModel DoscarProofs StreamConfig ChgcarModel ChgcarSpec ChgcarProofs VasprunTypes VasprunXml VasprunModel VasprunEvents VasprunSpec VasprunTables VasprunTree VasprunSteps VasprunEnergies Props_Vasprun Props_VasprunFile.
Import ListNotations.
Local Open Scope list_scope.

(** ** Reading rows by computation *)
Definition word_of (w : str) : option float := if existsb (aeqb "_") w then None else parse_float w.
Fixpoint all_some {A} (l : list (option A)) : option (list A) :=
  match l with [] => Some [] | Some a :: r => option_map (cons a) (all_some r) | None :: _ => None end.
Definition plain_char (c : ascii) : bool :=
  negb (aeqb c "(") && (negb (is_space c) || (N.leb 9 (N_of_ascii c) && N.leb (N_of_ascii c) 13) || N.eqb (N_of_ascii c) 32).
Definition row_of (e : xml) : option (list float) :=
  match text e with Some t => if forallb plain_char t then all_some (map word_of (split_ws t)) else None | None => None end.
Lemma row_holds e xs : row_of e = Some xs -> holds e xs.
Proof.
  unfold row_of, holds. destruct (text e) as [t|]; [|discriminate]. destruct (forallb plain_char t) eqn:P; [|discriminate]. intros H. exists t. split; auto. split.
  - intros c I. rewrite forallb_forall in P. specialize (P c I). unfold plain_char in P. apply andb_true_iff in P as [P1 P2]. split.
    + intros ->. discriminate.
    + intros S. rewrite S in P2. cbn [negb orb] in P2. apply orb_true_iff in P2 as [P2|P2]; [left|right].
      * apply andb_true_iff in P2 as [A B]. apply N.leb_le in A, B. auto.
      * apply N.eqb_eq. auto.
  - revert xs H. induction (split_ws t) as [|w ws IH]; intros xs H; cbn in H; [injection H as <-; constructor|].
    unfold word_of in H at 1. destruct (existsb (aeqb "_") w) eqn:U; [discriminate|]. destruct (parse_float w) as [v|] eqn:Pf; [|discriminate].
    destruct (all_some (map word_of ws)) as [r|] eqn:R; [|discriminate]. injection H as <-. constructor; [|apply IH; auto]. split; auto.
    intros I. assert (existsb (aeqb "_") w = true) as Z by (apply existsb_exists; exists "_"%char; split; auto). congruence.
Qed.
Lemma rows_holds es m : all_some (map row_of es) = Some m -> Forall2 holds es m.
Proof.
  revert m. induction es as [|e es IH]; intros m H; cbn in H; [injection H as <-; constructor|]. destruct (row_of e) as [r|] eqn:R; [|discriminate].
  destruct (all_some (map row_of es)) as [rs|]; [|discriminate]. injection H as <-. constructor; [apply row_holds|apply IH]; auto.
Qed.
Definition table_of (n : nat) (es : list xml) : option matrix :=
  match all_some (map row_of es) with Some m => if Nat.eqb (length m) n && forallb (fun r => Nat.eqb (length r) 3) m then Some m else None | None => None end.
Lemma table_holds n es m : table_of n es = Some m -> rows_hold n es m.
Proof.
  unfold table_of, rows_hold. destruct (all_some (map row_of es)) as [m'|] eqn:E; [|discriminate]. destruct (_ && _) eqn:C; [|discriminate]. intros H. injection H as <-. apply andb_true_iff in C as [L R]. apply Nat.eqb_eq in L. rewrite forallb_forall in R.
  split; [apply rows_holds; auto|]. split; auto. intros r I. apply Nat.eqb_eq, R; auto.
Qed.
Definition step_of (n : nat) (c : xml) : option ion_step :=
  match table_of 3 (findall_child basis_path c), table_of n (findall_child positions_path c), table_of n (findall_child (varray_path "forces") c), table_of 3 (findall_child (varray_path "stress") c) with
  | Some a, Some b, Some f, Some s => if Nat.eqb (length (findall_child [Tag "structure"] c)) 1 then Some (IonStep a b f s) else None
  | _, _, _, _ => None
  end.
Lemma step_of_holds n c s : step_of n c = Some s -> step_holds n c s.
Proof.
  unfold step_of, step_holds. destruct (table_of 3 (findall_child basis_path c)) as [a|] eqn:A; [|discriminate]. destruct (table_of n (findall_child positions_path c)) as [b|] eqn:B; [|discriminate].
  destruct (table_of n (findall_child (varray_path "forces") c)) as [f|] eqn:F; [|discriminate]. destruct (table_of 3 (findall_child (varray_path "stress") c)) as [st|] eqn:S; [|discriminate].
  destruct (Nat.eqb_spec (length (findall_child [Tag "structure"] c)) 1); [|discriminate]. intros H. injection H as <-. cbn [st_cell st_pos st_force st_stress]. split; [auto|]. split; [|split; [|split]]; apply table_holds; auto.
Qed.
Lemma steps_of_hold n cs l : all_some (map (step_of n) cs) = Some l -> Forall2 (step_holds n) cs l.
Proof.
  revert l. induction cs as [|e es IH]; intros m H; cbn in H; [injection H as <-; constructor|]. destruct (step_of n e) as [r|] eqn:R; [|discriminate].
  destruct (all_some (map (step_of n) es)) as [rs|]; [|discriminate]. injection H as <-. constructor; [apply step_of_holds|apply IH]; auto.
Qed.
Definition pair_of_key (c : xml) (key : string) : option energy_pair :=
  match all_some (map row_of (findall_deep (scstep_path key) c)), findall_child (final_path key) c with
  | Some rows, e :: _ => match all_some (map (fun r => match r with [v] => Some v | _ => None end) rows), text e with
                         | Some (v :: vs), Some t => if substrb (lit "****") t then None else option_map (EnergyPair (v :: vs)) (parse_float t)
                         | _, _ => None
                         end
  | _, _ => None
  end.
Lemma pair_holds c key p : pair_of_key c key = Some p -> energy_holds c key p.
Proof.
  unfold pair_of_key, energy_holds. destruct (all_some (map row_of _)) as [rows|] eqn:R; [|discriminate]. destruct (findall_child (final_path key) c) as [|e rest]; [discriminate|].
  destruct (all_some (map _ rows)) as [[|v vs]|] eqn:V; try discriminate. destruct (text e) as [t|] eqn:T; [|discriminate]. destruct (substrb (lit "****") t) eqn:S; [discriminate|].
  destruct (parse_float t) as [f|] eqn:P; [|discriminate]. cbn [option_map]. intros H. injection H as <-. cbn [ep_steps ep_final]. split; [|split; [discriminate|]].
  - apply rows_holds in R. revert v vs V. induction R as [|e' r es rs Hd R IH]; intros v vs V; cbn in V; [discriminate|]. destruct r as [|w [|? ?]]; try discriminate.
    destruct (all_some (map _ rs)) as [us|] eqn:U; [|discriminate]. injection V as <- <-. constructor; auto. destruct us; [|apply IH; auto]. destruct rs; [inversion R; constructor|]. cbn in U. destruct l as [|? [|? ?]]; try discriminate. destruct (all_some _); discriminate.
  - exists e, rest, t. repeat split; auto. intros a b ->. rewrite (proj2 (substrb_spec _ _)) in S; [discriminate|eauto].
Qed.
Definition pairs_of (c : xml) : option (str -> energy_pair) :=
  match pair_of_key c "e_0_energy", pair_of_key c "e_fr_energy", pair_of_key c "e_wo_entrp" with
  | Some a, Some b, Some d => Some (fun t => if seqb t (lit "energy_extrapolated") then a else if seqb t (lit "energy_free") then b else d)
  | _, _, _ => None
  end.
Lemma pairs_hold c f : pairs_of c = Some f -> energies_hold c f.
Proof.
  unfold pairs_of. destruct (pair_of_key c "e_0_energy") as [a|] eqn:A; [|discriminate]. destruct (pair_of_key c "e_fr_energy") as [b|] eqn:B; [|discriminate]. destruct (pair_of_key c "e_wo_entrp") as [d|] eqn:D; [|discriminate].
  intros H. injection H as <-. intros t k I. destruct I as [I|[I|[I|[]]]]; (pose proof (f_equal fst I) as I1; pose proof (f_equal snd I) as I2; cbn [fst snd] in I1, I2; subst t k); apply pair_holds; auto.
Qed.
Lemma all_pairs_hold cs l : all_some (map pairs_of cs) = Some l -> Forall2 energies_hold cs l.
Proof.
  revert l. induction cs as [|e es IH]; intros m H; cbn in H; [injection H as <-; constructor|]. destruct (pairs_of e) as [r|] eqn:R; [|discriminate].
  destruct (all_some (map pairs_of es)) as [rs|]; [|discriminate]. injection H as <-. constructor; [apply pairs_hold|apply IH]; auto.
Qed.

(** ** The document *)
Local Open Scope string_scope.
Local Open Scope list_scope.

Definition el (t : string) (a : list (string * string)) (x : string) (ks : list xml) : xml := Elem t a (Some (lit x)) ks.
Definition leaf (t : string) (x : string) : xml := Elem t [] (Some (lit x)) [].
Definition named_ (t n : string) (ks : list xml) : xml := Elem t [("name", n)] (Some (lit " ")) ks.
Definition comment_ (t n : string) (ks : list xml) : xml := Elem t [("comment", n)] (Some (lit " ")) ks.
Definition box (t : string) (ks : list xml) : xml := Elem t [] (Some (lit " ")) ks.
Definition i_ (n x : string) : xml := Elem "i" [("name", n)] (Some (lit x)) [].
Definition vs (rows : list string) : list xml := map (leaf "v") rows.
Definition rs (rows : list string) : list xml := map (leaf "r") rows.
Definition sample_energies (a b c : string) : list xml := [i_ "alphaZ" " 1.5 "; i_ "e_fr_energy" a; i_ "e_wo_entrp" b; i_ "e_0_energy" c].
Definition sample_structure (name : list (string * string)) (z : string) : xml :=
  Elem "structure" name (Some (lit " "))
    [box "crystal" [named_ "varray" "basis" (vs [" 4.0 0.0 0.0 "; " 0.0 4.0 0.0 "; " 0.0 0.0 8.5 "]); i_ "volume" " 136.0 "; named_ "varray" "rec_basis" (vs [" 0.25 0 0 "; " 0 0.25 0 "; " 0 0 0.118 "])];
     named_ "varray" "positions" (vs ["  0.0 0.0 0.0 "; (" 0.5 0.5 " ++ z)%string])].
Definition sample_step (z : string) (scsteps : list (string * string * string)) (tail : list xml) : xml :=
  box "calculation"
    (map (fun s => let '(a, b, c) := s in box "scstep" [el "time" [("name", "dav")] " 0.1 0.1 " []; box "energy" (sample_energies a b c)]) scsteps
     ++ [sample_structure [] z; named_ "varray" "forces" (vs [" 0.0 0.0 -0.1 "; (" 0 0 " ++ z)%string]); named_ "varray" "stress" (vs [" 1.0 0 0 "; " 0 1.0 0 "; (" 0 0 " ++ z)%string]);
         box "energy" (sample_energies (" -1" ++ z)%string (" -2" ++ z)%string (" -3" ++ z)%string); el "time" [("name", "totalsc")] " 1.0 2.0 " []] ++ tail).
Definition kset (rows : list string) : xml := comment_ "set" "kpoint" (rs rows).
Definition sample_eigenvalues : xml :=
  box "eigenvalues" [box "array" [leaf "dimension" "band"; leaf "field" "eigene"; box "set"
    [comment_ "set" "spin 1" [kset [" -5.1 1.0 "; "  2.5 0.0 "]; kset [" -5.3 1.0 "; "  2.75 0.0 "]];
     comment_ "set" "spin 2" [kset [" -6.1 1.0 "; "  3.5 0.0 "]; kset [" -6.3 0.5 "; "  3.75 0.0 "]]]]].
Definition pset (x : string) : xml := comment_ "set" "kpoint" (map (fun b => comment_ "set" "band" (rs [(x ++ b ++ " 0.1 0.2 0.3 0.4 0.5 0.6 0.7 0.8 ")%string; (x ++ b ++ " 1.1 1.2 1.3 1.4 1.5 1.6 1.7 1.8 ")%string])) ["1"; "2"]).
Definition sample_projected : xml :=
  box "projected" [sample_eigenvalues; box "array" [leaf "dimension" "ion"; leaf "field" "s"; box "set" [comment_ "set" "spin1" [pset " 1."; pset " 2."]; comment_ "set" "spin2" [pset " 3."; pset " 4."]]]].
Definition dset (n : string) (rows : list string) : xml := comment_ "set" n (rs rows).
Definition nine : string := " 1 2 3 4 5 6 7 8 9 ".
Definition sample_dos : xml :=
  box "dos" [i_ "efermi" " 2.125 ";
    box "total" [box "array" [leaf "field" "energy"; box "set" [dset "spin 1" [" -8.0 0.5 0.0 "; " 8.0 1.5 2.0 "]; dset "spin 2" [" -8.0 0.25 0.0 "; " 8.0 1.25 2.0 "]]]];
    box "partial" [box "array" [leaf "field" "energy"; box "set"
      [comment_ "set" "ion 1" [dset "spin 1" [(" -8.0 " ++ nine)%string; (" 8.0 " ++ nine)%string]; dset "spin 2" [(" -8.0 " ++ nine)%string; (" 8.0 " ++ nine)%string]];
       comment_ "set" "ion 2" [dset "spin 1" [(" -8.0 " ++ nine)%string; (" 8.0 " ++ nine)%string]; dset "spin 2" [(" -8.0 " ++ nine)%string; (" 8.0 " ++ nine)%string]]]]]].
Definition sample_parameters : xml :=
  box "parameters" [named_ "separator" "general" [i_ "SYSTEM" "two atoms"];
    named_ "separator" "electronic" [i_ "PREC" "accura"; i_ "NBANDS" "      2"; i_ "NELECT" " 4.0 ";
      named_ "separator" "electronic smearing" [i_ "ISMEAR" " 0"; i_ "SIGMA" " 0.05 "]; named_ "separator" "electronic spin" [i_ "ISPIN" " 2"];
      named_ "separator" "electronic convergence" [i_ "NELM" " 60"]];
    named_ "separator" "ionic" [i_ "NSW" " 3"]; named_ "separator" "symmetry" [i_ "SYMPREC" " 0.00001"]].
Definition sample_kpoints : xml :=
  box "kpoints" [Elem "generation" [("param", "Gamma")] (Some (lit " ")) [Elem "v" [("type", "int"); ("name", "divisions")] (Some (lit " 2 1 1 ")) []; Elem "v" [("name", "usershift")] (Some (lit " 0 0 0 ")) []];
    named_ "varray" "kpointlist" (vs [" 0.0 0.0 0.0 "; " 0.5 0.0 0.0 "]); named_ "varray" "weights" (vs [" 0.5 "; " 0.5 "])].
Definition sample_atoms : xml :=
  box "atominfo" [leaf "atoms" " 2 "; named_ "array" "atoms" [leaf "dimension" "ion"; leaf "field" "element"; box "set" [box "rc" [leaf "c" "Na"; leaf "c" " 1"]; box "rc" [leaf "c" "Cl"; leaf "c" " 2"]]];
    named_ "array" "atomtypes" [box "set" [box "rc" [leaf "c" " 1"; leaf "c" "Na"]]]].
Definition sample_document (calcs : list xml) : xml :=
  box "modeling" ([box "generator" [i_ "program" "vasp"; i_ "version" "5.4.4.18Apr17"]; box "incar" [i_ "NBANDS" "  9"]; sample_kpoints; sample_parameters; sample_atoms; sample_structure [("name", "initialpos")] "0.5"]
    ++ calcs ++ [sample_structure [("name", "finalpos")] "0.7"]).
Definition sample : xml := sample_document
  [sample_step "0.5" [(" -1.0", " -2.0", " -3.0"); (" -1.5", " -2.5", " -3.5")] []; sample_step "0.6" [(" -1.25", " -2.25", " -3.25")] [];
   sample_step "0.7" [(" -4.25", " -5.25", " -6.25"); (" -4.5", " -5.5", " -6.5"); (" -7.5", " -8.5", " -9.5")] [sample_eigenvalues; sample_dos; sample_projected]].

Local Close Scope string_scope.

(** ** Both parsers read it *)
Example sample_regular : exists p, parsew sample false true = Ok p.
Proof. eexists. vm_compute. reflexivity. Qed.
Example sample_first : exists p, parsew sample true false = Ok p.
Proof. eexists. vm_compute. reflexivity. Qed.
Example sample_events : exists p, parsee false (events None sample) = Ok p.
Proof. eexists. vm_compute. reflexivity. Qed.
Definition sample_steps : list ion_step := match all_some (map (step_of 2) (calculations sample)) with Some l => l | None => [] end.
Definition tree_of (x : xml) (kbb all : bool) : parsed := match parsew x kbb all with Ok p => p | Exn _ => nothing end.
Definition read_events (x : xml) (kbb : bool) : parsed := match parsee kbb (events None x) with Ok p => p | Exn _ => nothing end.
(** C54: all_steps, initial, last *)
Example c54_sample : steps_run sample false (tree_of sample false true) [11; 17]%Z sample_steps /\ length sample_steps = 3.
Proof.
  split; [|vm_compute; reflexivity]. unfold steps_run. split; [vm_compute; reflexivity|]. split; [vm_compute; reflexivity|]. split; [cbn; lia|]. apply steps_of_hold. vm_compute. reflexivity.
Qed.
Example c54_sample_first : exists c1 c2 q1 q2, two_structures sample 2 c1 c2 q1 q2 /\ q1 <> q2.
Proof.
  unfold two_structures. eexists _, _, _, _. split; [split; [|split; [|split]]; apply table_holds; vm_compute; reflexivity|]. vm_compute. discriminate.
Qed.
Lemma steps_forces n cs l : Forall2 (step_holds n) cs l -> Forall2 (forces_hold n) cs (map (fun s => (st_force s, st_stress s)) l).
Proof. intros F. apply Forall2_map_r. eapply Forall2_impl; [|exact F]. unfold step_holds, forces_hold. tauto. Qed.
Example c54_sample_forces : exists f1 fs, fs <> [] /\ Forall2 (forces_hold 2) (calculations sample) (f1 :: fs).
Proof.
  pose proof (steps_forces _ _ _ (proj2 (proj2 (proj2 (proj1 c54_sample))))) as F. pose proof (proj2 c54_sample) as L.
  destruct sample_steps as [|s0 [|s1 l]]; try discriminate. eexists _, _. split; [|exact F]. discriminate.
Qed.
(** C54: one atom and two steps; one step *)
Local Open Scope string_scope.
Local Open Scope list_scope.
Definition tiny_step (z : string) : xml :=
  box "calculation" [box "structure" [box "crystal" [named_ "varray" "basis" (vs [(" 4 0 " ++ z)%string; " 0 4 0 "; " 0 0 4 "])]; named_ "varray" "positions" (vs [(" 0 0 " ++ z)%string])];
                     named_ "varray" "forces" (vs [(" 0 0 " ++ z)%string]); named_ "varray" "stress" (vs [(" 4 0 " ++ z)%string; " 0 4 0 "; " 0 0 4 "])].
Definition tiny (calcs : list xml) : xml := box "modeling" (box "atominfo" [named_ "array" "atoms" [box "set" [box "rc" [leaf "c" "Na"; leaf "c" " 1"]]]] :: calcs).
Local Close Scope string_scope.
Definition tiny_steps (x : xml) : list ion_step := match all_some (map (step_of 1) (calculations x)) with Some l => l | None => [] end.
Example c54_tiny : let x := tiny [tiny_step "0.5"%string; tiny_step "0.75"%string] in
  exists s0 s1, steps_run x false (tree_of x false true) [11]%Z [s0; s1] /\ st_pos s0 <> st_pos s1.
Proof.
  intros x. eexists _, _. split.
  - unfold steps_run. split; [vm_compute; reflexivity|]. split; [vm_compute; reflexivity|]. split; [cbn; lia|]. apply steps_of_hold. vm_compute. reflexivity.
  - vm_compute. discriminate.
Qed.
Example c54_tiny_one : let x := tiny [tiny_step "0.5"%string] in exists s0, steps_run x false (tree_of x false true) [11]%Z [s0].
Proof. intros x. eexists. unfold steps_run. split; [vm_compute; reflexivity|]. split; [vm_compute; reflexivity|]. split; [cbn; lia|]. apply steps_of_hold. vm_compute. reflexivity. Qed.
(** C56: eigenvalues with occupancies, projectors *)
Example c56_sample : exists rs1 rs2, rs1 <> [] /\ rs2 <> [] /\ Forall2 holds (findall_deep (spin_path [Tag "eigenvalues"] "spin 1") sample) rs1 /\ Forall2 holds (findall_deep (spin_path [Tag "eigenvalues"] "spin 2") sample) rs2 /\
  (forall r, In r (rs1 ++ rs2) -> length r = 2).
Proof.
  eexists _, _. split; [|split; [|split; [apply rows_holds; vm_compute; reflexivity|split; [apply rows_holds; vm_compute; reflexivity|]]]]; try discriminate. intros r I. repeat (destruct I as [<-|I]; [reflexivity|]). destruct I.
Qed.
Example c56_sample_projectors : let rows spin := findall_deep [Tag "calculation"; Tag "projected"; Tag "array"; Tag "set"; TagAt "set" "comment" spin; Tag "set"; Tag "set"; Tag "r"] sample in
  exists rs1 rs2, length rs1 = 8 /\ length rs2 = 8 /\ Forall2 holds (rows "spin1"%string) rs1 /\ Forall2 holds (rows "spin2"%string) rs2 /\ (forall r, In r (rs1 ++ rs2) -> length r = 9).
Proof.
  intros rows. eexists _, _. split; [|split; [|split; [apply rows_holds; vm_compute; reflexivity|split; [apply rows_holds; vm_compute; reflexivity|]]]]; try reflexivity. intros r I. repeat (destruct I as [<-|I]; [reflexivity|]). destruct I.
Qed.
(** velocities: two k-points, two bands *)
Local Open Scope string_scope.
Local Open Scope list_scope.
Definition sample_velocities : xml := box "eigenvelocities" [box "kpoints" [named_ "varray" "kpointlist" (vs [" 0.0 0.0 0.0 "; " 0.25 0.0 0.0 "]); named_ "varray" "weights" (vs [" 0.5 "; " 0.5 "])];
  box "eigenvalues" [box "array" [box "set" [comment_ "set" "spin 1" [kset [" -5.1 1 2 3 "; "  2.5 4 5 6 "]; kset [" -5.3 7 8 9 "; "  2.75 1 1 1 "]]]]]].
Local Close Scope string_scope.
Local Open Scope string_scope.
Local Open Scope list_scope.
Definition sample2 : xml := sample_document [sample_step "0.5" [(" -1.0", " -2.0", " -3.0")] [sample_velocities]].
Local Close Scope string_scope.
Example c56_sample_velocities : (exists p, parsew sample2 false true = Ok p) /\
  let rows spin := findall_deep (spin_path [Tag "eigenvelocities"; Tag "eigenvalues"] spin) sample2 in
  exists rs1, length rs1 = 4 /\ Forall2 holds (rows "spin 1"%string) rs1 /\ rows "spin 2"%string = [] /\ forall r, In r (rs1 ++ []) -> length r = 4.
Proof.
  split; [eexists; vm_compute; reflexivity|]. intros rows. eexists. split; [|split; [apply rows_holds; vm_compute; reflexivity|split; [vm_compute; reflexivity|]]]; try reflexivity. intros r I. repeat (destruct I as [<-|I]; [reflexivity|]). destruct I.
Qed.
(** C57 *)
Example c57_sample : exists l, length l = 3 /\ Forall2 energies_hold (calculations sample) l.
Proof. eexists. split; [|apply all_pairs_hold; vm_compute; reflexivity]. reflexivity. Qed.
Local Open Scope string_scope.
Local Open Scope list_scope.
Definition sample3 : xml := sample_document [box "calculation" [box "energy" (sample_energies " 1.0" " 2.0" " 3.0")]; sample_step "0.5" [(" -1.0", " -2.0", " -3.0")] []].
Local Close Scope string_scope.
Example c57_sample_missing : (exists p, parsew sample3 false true = Ok p) /\ exists c, In c (calculations sample3) /\ findall_deep (scstep_path "e_0_energy") c = [].
Proof. split; [eexists; vm_compute; reflexivity|]. eexists. split; [left; vm_compute; reflexivity|vm_compute; reflexivity]. Qed.
