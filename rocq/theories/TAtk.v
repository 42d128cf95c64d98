(** C87: the script for ATK represents the atoms of the configuration. *)
From Verif Require Import PBase MAtk PFormat PPython PPrint PScript PAtk TPyLattice.
From Verif Require Export SAtk.
From Coq Require Import ZifyBool.
Open Scope string_scope.
Open Scope list_scope.
Open Scope Z_scope.

(** The script of _atkScript(types_map) when at least one atom has a type in the map, and the map leads to names.  It consists of comments, the three vectors a, b, c of the cell, the assignment of the lattice,
    the two assignments "elements" and "coordinates" and the call of BulkConfiguration.
    - The vectors are, to eight decimals, those of the unit cell times the repetitions.
    - The elements are the names of the atoms whose type is in the map, in the order of the atoms; the coordinates are, to nine digits, their positions divided by the repetitions. *)
Theorem C87_script U kl m types coords : 0 < U -> 0 < lt_ra (kl_lat kl) -> 0 < lt_rb (kl_lat kl) -> 0 < lt_rc (kl_lat kl) -> (forall t e, hasName m t e -> isName e = true) -> translated m types coords <> [] ->
  exists comments a b c body call, atkText U kl m types coords = (comments ++ "vector_a = " ++ a ++ "*Angstrom" ++ NL ++ "vector_b = " ++ b ++ "*Angstrom" ++ NL ++ "vector_c = " ++ c ++ "*Angstrom" ++ NL ++
      "lattice = UnitCell(vector_a, vector_b, vector_c)" ++ NL ++ NL ++ body ++ call)%string /\
    program comments = Some [] /\
    (exists ea eb ec, program ("vector_a = " ++ a ++ NL) = Some [SSet "vector_a" ea] /\ program ("vector_b = " ++ b ++ NL) = Some [SSet "vector_b" eb] /\ program ("vector_c = " ++ c ++ NL) = Some [SSet "vector_c" ec] /\
      let L := kl_lat kl in let '(va, vb, vc) := uc_vectors (kl_cell kl) in
      threeNumbers (toDecimals 8) (inUnits U (cx va * lt_ra L)) (inUnits U (cy va * lt_ra L)) (inUnits U (cz va * lt_ra L)) ea /\
      threeNumbers (toDecimals 8) (inUnits U (cx vb * lt_rb L)) (inUnits U (cy vb * lt_rb L)) (inUnits U (cz vb * lt_rb L)) eb /\
      threeNumbers (toDecimals 8) (inUnits U (cx vc * lt_rc L)) (inUnits U (cy vc * lt_rc L)) (inUnits U (cz vc * lt_rc L)) ec) /\
    (exists names points, program body = Some [SSet "elements" (EList (map EName names)); SSet "coordinates" (EList points)] /\
      Forall2 (fun tc n => hasName m (fst tc) n) (translated m types coords) names /\
      Forall2 (fun tc e => threeNumbers (toDigits 8) (inUnits U (cx (snd tc)) / inject_Z (lt_ra (kl_lat kl))) (inUnits U (cy (snd tc)) / inject_Z (lt_rb (kl_lat kl))) (inUnits U (cz (snd tc)) / inject_Z (lt_rc (kl_lat kl))) e) (translated m types coords) points) /\
    program call = Some [SCall "bulk_configuration" "BulkConfiguration" [("bravais_lattice", EName "lattice"); ("elements", EName "elements"); ("fractional_coordinates", EName "coordinates")]].
Proof.
  intros HU Ha Hb Hc HM HN. unfold atkText, atkCell. destruct (uc_vectors (kl_cell kl)) as [[va vb] vc].
  assert (VEC : forall h x rep v, scan Start 0 h = Some ([TName x; TSym "="], Idle, O) -> exists e, program (h ++ ("[ " ++ fmtF 12 8 U (cx v * rep) ++ ", " ++ fmtF 12 8 U (cy v * rep) ++ ", " ++ fmtF 12 8 U (cz v * rep) ++ "]") ++ NL) = Some [SSet x e] /\
    threeNumbers (toDecimals 8) (inUnits U (cx v * rep)) (inUnits U (cy v * rep)) (inUnits U (cz v * rep)) e).
  { intros h x rep v Hh. destruct (three_text (toDecimals 8) _ _ _ _ _ _ (fmtF_text 8 12 U (cx v * rep) ltac:(lia) HU) (fmtF_text 8 12 U (cy v * rep) ltac:(lia) HU) (fmtF_text 8 12 U (cz v * rep) ltac:(lia) HU)) as (e & (ts & C & P) & T). exists e. split; [|exact T].
    apply fileOf_program. exact (fileOf_set _ _ _ _ _ Hh C P). }
  pose proof (atoms_translated m types coords) as AT. assert (NE : atkAtoms m types coords <> []) by (intros E; rewrite E in AT; inversion AT as [E2|]; congruence).
  destruct (exists_last NE) as (l & x & EA). destruct (loop_items U (kl_lat kl) l x 0) as (g & G1 & G2 & EL). rewrite EA, EL. rewrite EA in AT.
  destruct (VEC "vector_a = " "vector_a" (lt_ra (kl_lat kl)) va eq_refl) as (ea & PA & TA). destruct (VEC "vector_b = " "vector_b" (lt_rb (kl_lat kl)) vb eq_refl) as (eb & PB & TB). destruct (VEC "vector_c = " "vector_c" (lt_rc (kl_lat kl)) vc eq_refl) as (ec & PC & TC). clear VEC.
  set (elems := ("elements = " ++ (String "[" (cat (map (fun aw => fst aw ++ "," ++ snd aw) g) ++ fst x ++ "]")) ++ NL)%string).
  set (points := ("coordinates = " ++ ("[" ++ items (atkPoint U (kl_lat kl)) (NL ++ blanks 15) (map snd l) ++ atkPoint U (kl_lat kl) (snd x) ++ "]") ++ NL)%string).
  exists (atkHeader ++ "# Specify the lattice parameters." ++ NL)%string, ("[ " ++ fmtF 12 8 U (cx va * lt_ra (kl_lat kl)) ++ ", " ++ fmtF 12 8 U (cy va * lt_ra (kl_lat kl)) ++ ", " ++ fmtF 12 8 U (cz va * lt_ra (kl_lat kl)) ++ "]")%string,
    ("[ " ++ fmtF 12 8 U (cx vb * lt_rb (kl_lat kl)) ++ ", " ++ fmtF 12 8 U (cy vb * lt_rb (kl_lat kl)) ++ ", " ++ fmtF 12 8 U (cz vb * lt_rb (kl_lat kl)) ++ "]")%string, ("[ " ++ fmtF 12 8 U (cx vc * lt_rc (kl_lat kl)) ++ ", " ++ fmtF 12 8 U (cy vc * lt_rc (kl_lat kl)) ++ ", " ++ fmtF 12 8 U (cz vc * lt_rc (kl_lat kl)) ++ "]")%string,
    (("# Define the elements." ++ NL) ++ elems ++ NL ++ ("# Define the coordinates." ++ NL) ++ points ++ NL)%string, atkConfiguration.
  assert (NA : forall n, In n (map fst (l ++ [x])) -> exists e, textOf n e /\ e = EName n).
  { intros n Hn. exists (EName n). split; [|reflexivity]. apply name_text. rewrite EA in *. clear - AT HM Hn. revert Hn AT. generalize (translated m types coords) as tr. induction (l ++ [x]) as [|ec r IH]; intros tr Hn AT; [destruct Hn|]. inversion AT as [|tc ec' tr' r' [H1 _] AT']; subst. destruct Hn as [<-|Hn]; [eapply HM; exact H1|eapply IH; eauto]. }
  destruct (list_text (fun n => n) (fun n e => e = EName n) g (fst x)) as (es & (te & CE & PE) & FE); [rewrite G1; change [fst x] with (map fst [x]); rewrite <- map_app; exact NA|exact G2|]. rewrite G1 in FE. change [fst x] with (map fst [x]) in FE. rewrite <- map_app in FE.
  assert (EN : es = map EName (map fst (l ++ [x]))) by (clear - FE; induction FE as [|a e la le E F IH]; [reflexivity|]; cbn [map]; congruence). subst es. clear FE.
  destruct (list_text (atkPoint U (kl_lat kl)) (fun c e => threeNumbers (toDigits 8) (inUnits U (cx c) / inject_Z (lt_ra (kl_lat kl))) (inUnits U (cy c) / inject_Z (lt_rb (kl_lat kl))) (inUnits U (cz c) / inject_Z (lt_rc (kl_lat kl))) e) (map (fun c => (c, NL ++ blanks 15)%string) (map snd l)) (snd x)) as (ps & (tp & CP & PP) & FP).
  { intros c _. assert (Q : forall v r, 0 < r -> (inject_Z v / inject_Z (U * r) == inUnits U v / inject_Z r)%Q) by (intros v r Hr; unfold inUnits; rewrite inject_Z_mult; field; split; apply inject_neq; lia).
    apply three_text; apply fmtE_text; try lia; try nia; apply Q; assumption. }
  { intros c w Hin. apply in_map_iff in Hin. destruct Hin as (c' & E & _). injection E as _ <-. exact (gap_break 15). }
  rewrite map_map, map_id in FP. change [snd x] with (map snd [x]) in FP. rewrite <- map_app in FP. rewrite <- items_pairs in CP.
  split; [|split; [reflexivity|split; [exists ea, eb, ec; auto 8|split; [|reflexivity]]]].
  - unfold atkVector, elems, points. repeat (rewrite ?sapp_assoc; cbn [String.append]). reflexivity.
  - exists (map fst (l ++ [x])), ps. split; [|split].
    + apply fileOf_program. change [SSet "elements" (EList (map EName (map fst (l ++ [x])))); SSet "coordinates" (EList ps)] with ([] ++ [SSet "elements" (EList (map EName (map fst (l ++ [x]))))] ++ [] ++ [] ++ [SSet "coordinates" (EList ps)] ++ []).
      apply fileOf_app; [apply fileOf_comment; reflexivity|]. apply fileOf_app; [exact (fileOf_set "elements = " _ _ _ _ eq_refl CE PE)|]. apply fileOf_app; [apply fileOf_blank|]. apply fileOf_app; [apply fileOf_comment; reflexivity|]. apply fileOf_app; [exact (fileOf_set "coordinates = " _ _ _ _ eq_refl CP PP)|apply fileOf_blank].
    + clear - AT. induction AT as [|tc ec tr r [H1 _] AT IH]; [constructor|]. cbn [map]. constructor; assumption.
    + clear - AT FP. revert ps FP. induction AT as [|tc ec tr r [_ H2] AT IH]; intros ps FP; cbn [map] in FP; inversion FP; subst; [constructor|]. rewrite H2 in *. constructor; auto.
Qed.
(** Without such an atom the lists are opened but never closed: the rest of the file is not a program. *)
Theorem C87_no_atoms U kl m types coords : translated m types coords = [] ->
  exists front rest, atkText U kl m types coords = (front ++ rest)%string /\ (exists t, rest = ("# Define the elements." ++ NL ++ t)%string) /\ words rest = None.
Proof.
  intros E. pose proof (atoms_translated m types coords) as AT. rewrite E in AT. assert (E2 : atkAtoms m types coords = []) by (destruct (atkAtoms m types coords); [reflexivity|inversion AT]). unfold atkText. rewrite E2. cbn [atkLoop].
  exists (atkHeader ++ atkCell U kl)%string, (("# Define the elements." ++ NL ++ "elements = [" ++ "") ++ ("# Define the coordinates." ++ NL ++ "coordinates = [" ++ "") ++ atkConfiguration)%string. split; [rewrite !sapp_assoc; reflexivity|]. split; [eexists; rewrite !sapp_assoc; reflexivity|]. vm_compute. reflexivity.
Qed.

(** ** A concrete case: the first script of the unit tests; two cells side by side, an atom A at each site but one, which has the type B *)
Definition x87Cell : ucell := mkUC (mkC 2800 0 0, mkC 0 3200 0, mkC 0 500 3000) [mkC 0 0 0; mkC 500 500 500].
Definition x87L : lattice := mkLat 2 2 1 1 true true false 1000.
Definition x87kl : klattice := mkKL x87Cell x87L (generateLatticeSites x87L (uc_basis x87Cell)).
Definition x87map : list (string * string) := [("A", "Copper"); ("C", "Iron")].
Definition x87types : list string := ["A"; "B"; "C"; "A"].
Definition x87coords : list coord := [mkC 0 0 0; mkC 500 500 500; mkC 1000 0 0; mkC 1500 500 500].
Definition x87text : string := atkText 1000 x87kl x87map x87types x87coords.
Example C87_example : (forall t e, hasName x87map t e -> isName e = true) /\ translated x87map x87types x87coords = [("A", mkC 0 0 0); ("C", mkC 1000 0 0); ("A", mkC 1500 500 500)] /\
  x87text = (atkHeader ++ "# Specify the lattice parameters." ++ NL ++ "vector_a = [   5.60000000,   0.00000000,   0.00000000]*Angstrom" ++ NL ++ "vector_b = [   0.00000000,   3.20000000,   0.00000000]*Angstrom" ++ NL ++ "vector_c = [   0.00000000,   0.50000000,   3.00000000]*Angstrom" ++ NL ++
    "lattice = UnitCell(vector_a, vector_b, vector_c)" ++ NL ++ NL ++ "# Define the elements." ++ NL ++ "elements = [Copper, Iron, Copper]" ++ NL ++ NL ++ "# Define the coordinates." ++ NL ++
    "coordinates = [[  0.00000000e+00,  0.00000000e+00,  0.00000000e+00]," ++ NL ++ "               [  5.00000000e-01,  0.00000000e+00,  0.00000000e+00]," ++ NL ++ "               [  7.50000000e-01,  5.00000000e-01,  5.00000000e-01]]" ++ NL ++ NL ++ atkConfiguration)%string /\
  (exists ts, words x87text = Some ts).
Proof.
  split; [|split; [vm_compute; reflexivity|split; [vm_compute; reflexivity|eexists; vm_compute; reflexivity]]]. intros t e H. apply dict_name in H. unfold dictGet, x87map in H. cbn [find fst] in H. destruct (String.eqb "A" t); [injection H as <-; reflexivity|]. destruct (String.eqb "C" t); [injection H as <-; reflexivity|discriminate].
Qed.
(** The same atoms and a map that has none of their types: the script cannot be read. *)
Theorem C87_refuted : exists U kl m types coords, 0 < U /\ 0 < lt_ra (kl_lat kl) /\ 0 < lt_rb (kl_lat kl) /\ 0 < lt_rc (kl_lat kl) /\ (forall t e, hasName m t e -> isName e = true) /\ words (atkText U kl m types coords) = None.
Proof.
  exists 1000, x87kl, [("D", "Vanadium")], x87types, x87coords. do 4 (split; [reflexivity|]). split; [|vm_compute; reflexivity]. intros t e H. apply dict_name in H. unfold dictGet in H. cbn [find fst] in H. destruct (String.eqb "D" t); [injection H as <-; reflexivity|discriminate].
Qed.

Print Assumptions C87_script.
Print Assumptions C87_no_atoms.
Print Assumptions C87_example.
Print Assumptions C87_refuted.
