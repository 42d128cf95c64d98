(** A script is a program that makes the objects again. *)
From Verif Require Export SSaved PPython PAgain.
From Verif Require Import PPyProcess PTypes PTotal.
Open Scope string_scope.
Open Scope list_scope.
Open Scope Z_scope.

(** ** Names *)
Lemma run_name w d v : allDigits v -> scan (InName w) d v = Some ([], InName (w ++ v), d).
Proof.
  revert w. induction v as [|c v IH]; intros w H; [cbn; rewrite sapp_nil; reflexivity|]. destruct H as [H1 H2]. rewrite scan_cons. cbn [scanChar]. rewrite H1, orb_true_r. cbn [Base.obind]. rewrite prepend_nil, IH by exact H2. unfold snoc. rewrite sapp_assoc. reflexivity.
Qed.
Lemma processName_run j d : 0 <= j -> scan Idle d (processName j) = Some ([], InName (processName j), d).
Proof. intros H. unfold processName. rewrite (run_front Idle d "process_" [] (InName "process_") d) by reflexivity. rewrite prepend_nil. apply run_name, showZ_digits, H. Qed.
Lemma showZ_inj a b : showZ a = showZ b -> a = b.
Proof. intros E. pose proof (readZ_showZ a) as H. rewrite E, readZ_showZ in H. congruence. Qed.
Lemma processName_inj a b : processName a = processName b -> a = b.
Proof. unfold processName. cbn [String.append]. intros E. injection E as E. apply showZ_inj, E. Qed.

(** ** Variables *)
Lemma getVar_set l x v y : getVar (setVar l x v) y = if String.eqb x y then Some v else getVar l y.
Proof.
  unfold getVar. induction l as [|[z w] l IH]; cbn [setVar find fst]; [destruct (String.eqb x y); reflexivity|].
  destruct (String.eqb_spec z x) as [->|N]; cbn [find fst].
  - destruct (String.eqb x y); reflexivity.
  - destruct (String.eqb_spec z y) as [->|]; [|exact IH]. destruct (String.eqb_spec x y); [congruence|reflexivity].
Qed.

Lemma zget_app_at {A} (l : list A) x m : zget (l ++ x :: m) (zlen l) = Some x.
Proof. rewrite zget_app_r by lia. rewrite Z.sub_diag. reflexivity. Qed.

Lemma forallb_filter_id {A} (f : A -> bool) l : forallb f l = true -> filter f l = l.
Proof. induction l as [|a l IH]; [reflexivity|]. cbn. intros H. apply andb_true_iff in H. destruct H as [-> H]. rewrite IH by exact H. reflexivity. Qed.

(** ** Texts *)
Lemma value_three float lists good a b c va vb vc : valueText float lists good a va -> valueText float lists good b vb -> valueText float lists good c vc -> valueText float lists good ("[" ++ a ++ "," ++ b ++ "," ++ c ++ "]") (VList [va; vb; vc]).
Proof.
  intros Ha Hb Hc. pose proof (value_seq float lists good "[" "]" (fun p : string * pyval => fst p) snd [((a, va), ""); ((b, vb), "")] (c, vc) (or_introl (conj eq_refl eq_refl)) ltac:(discriminate)) as H.
  cbn [map fst snd app cat] in H. rewrite !sapp_assoc in H. cbn [String.append] in *. apply H.
  - intros p [<-|[<-|[<-|[]]]]; assumption.
  - intros p w [E|[E|[]]]; injection E as _ <-; apply gap_nil.
Qed.
Lemma value_keyword float lists good x v : (forall d, scan Idle d x = Some ([], InName x, d)) -> keyword x = Some v -> valueText float lists good x v.
Proof. intros H K. apply value_name; [exact H|]. intros vars _. cbn [evalExpr]. rewrite K. reflexivity. Qed.
Lemma value_bool float lists good b : valueText float lists good (boolText b) (VBool b).
Proof. destruct b; apply value_keyword; reflexivity. Qed.
Lemma value_var float (vars : list (string * pyval)) x v : (forall d, scan Idle d x = Some ([], InName x, d)) -> keyword x = None -> getVar vars x = Some v -> valueText float true (eq vars) x v.
Proof. intros H K G. apply value_name; [exact H|]. intros vars' <-. cbn [evalExpr]. rewrite K, G. cbn [Base.obind]. destruct v; reflexivity. Qed.
Lemma value_object float lists (vars : list (string * pyval)) x n : (forall d, scan Idle d x = Some ([], InName x, d)) -> keyword x = None -> getVar vars x = Some (VOther n) -> valueText float lists (eq vars) x (VOther n).
Proof. intros H K G. apply value_name; [exact H|]. intros vars' <-. cbn [evalExpr]. rewrite K, G. reflexivity. Qed.
(** items of a list, each followed by the same gap *)
Definition items {A} (tx : A -> string) (w : string) (l : list A) : string := cat (map (fun a => tx a ++ "," ++ w)%string l).
Lemma items_pairs {A} (tx : A -> string) w l : items tx w l = cat (map (fun aw => tx (fst aw) ++ "," ++ snd aw)%string (map (fun a => (a, w)) l)).
Proof. unfold items. rewrite map_map. reflexivity. Qed.
Lemma value_items float lists good {A} (tx : A -> string) (val : A -> pyval) w l x : gap w -> (forall a, In a (l ++ [x]) -> valueText float lists good (tx a) (val a)) ->
  valueText float lists good ("[" ++ items tx w l ++ tx x ++ "]") (VList (map val (l ++ [x]))).
Proof.
  intros G H. rewrite items_pairs. pose proof (value_seq float lists good "[" "]" tx val (map (fun a => (a, w)) l) x (or_introl (conj eq_refl eq_refl)) ltac:(discriminate)) as V. rewrite map_map in V. cbn [fst] in V. rewrite map_id in V. apply V.
  - exact H.
  - intros a w' Hin. apply in_map_iff in Hin. destruct Hin as (b & E & _). injection E as _ <-. exact G.
Qed.
Lemma basisText_items U first l x : basisText U first (l ++ [x]) = ((if first then "" else blanks 16) ++ items (vectorText U) (NL ++ blanks 16) l ++ vectorText U x ++ "]" ++ NL)%string.
Proof.
  revert first. induction l as [|a l IH]; intros first; [reflexivity|]. assert (E : basisText U first ((a :: l) ++ [x]) = ((if first then "" else blanks 16) ++ vectorText U a ++ "," ++ NL ++ basisText U false (l ++ [x]))%string) by (destruct l; reflexivity).
  rewrite E, IH. unfold items. cbn [map cat]. rewrite !sapp_assoc. reflexivity.
Qed.
Lemma coordsText_items U first l x : coordsText U first (l ++ [x]) = ((if first then "" else blanks 15) ++ items (vectorText U) (NL ++ blanks 15) l ++ vectorText U x ++ "]" ++ NL)%string.
Proof.
  revert first. induction l as [|a l IH]; intros first; [reflexivity|]. assert (E : coordsText U first ((a :: l) ++ [x]) = ((if first then "" else blanks 15) ++ vectorText U a ++ "," ++ NL ++ coordsText U false (l ++ [x]))%string) by (destruct l; reflexivity).
  rewrite E, IH. unfold items. cbn [map cat]. rewrite !sapp_assoc. reflexivity.
Qed.
Definition moveText (U : Z) (iv : Z * coord) : string := ("( " ++ fmt2i (fst iv) ++ "," ++ vectorText U (snd iv) ++ ")")%string.
Lemma movesText_items U l x : movesText U (l ++ [x]) = (items (moveText U) (NL ++ blanks 19) l ++ moveText U x ++ "]" ++ NL)%string.
Proof.
  induction l as [|[i v] l IH]; [destruct x as [i v]; unfold items, moveText; cbn [app movesText map cat fst snd]; rewrite !sapp_assoc; reflexivity|].
  assert (E : movesText U (((i, v) :: l) ++ [x]) = (moveText U (i, v) ++ "," ++ NL ++ blanks 19 ++ movesText U (l ++ [x]))%string) by (unfold moveText; cbn [fst snd]; rewrite !sapp_assoc; destruct l; reflexivity).
  rewrite E, IH. unfold items. cbn [map cat]. rewrite !sapp_assoc. reflexivity.
Qed.
Lemma basisSites_items l x : basisSitesText (l ++ [x]) = (items showZ "" l ++ showZ x ++ "]")%string.
Proof. induction l as [|a l IH]; [reflexivity|]. assert (E : basisSitesText ((a :: l) ++ [x]) = (showZ a ++ "," ++ basisSitesText (l ++ [x]))%string) by (destruct l; reflexivity). rewrite E, IH. unfold items. cbn [map cat]. rewrite !sapp_assoc. reflexivity. Qed.
Definition quoted (t : string) : string := ("'" ++ t ++ "'")%string.
Lemma namesText_items indent l x : forall line, exists g, map fst g = l /\ (forall a w, In (a, w) g -> gap w) /\
  namesText indent line (l ++ [x]) = (line ++ cat (map (fun aw => quoted (fst aw) ++ "," ++ snd aw) g) ++ quoted x ++ "]" ++ NL)%string.
Proof.
  induction l as [|a l IH]; intros line.
  - exists []. split; [reflexivity|]. split; [intros ? ? []|]. unfold quoted. cbn [app namesText map cat]. rewrite !sapp_assoc. reflexivity.
  - assert (E : namesText indent line ((a :: l) ++ [x]) = let line1 := (line ++ "'" ++ a ++ "'" ++ ",")%string in if 50 <? slen line1 then (line1 ++ NL ++ blanks indent ++ namesText indent "" (l ++ [x]))%string else namesText indent line1 (l ++ [x])) by (destruct l; reflexivity).
    rewrite E. cbv zeta. destruct (50 <? _).
    + destruct (IH "") as (g & G1 & G2 & ->). exists ((a, (NL ++ blanks indent)%string) :: g). split; [cbn; rewrite G1; reflexivity|]. split; [intros b w [Hin|Hin]; [injection Hin as _ <-; apply gap_break|exact (G2 b w Hin)]|].
      unfold quoted. cbn [map cat fst snd]. rewrite !sapp_assoc. reflexivity.
    + destruct (IH (line ++ "'" ++ a ++ "'" ++ ",")%string) as (g & G1 & G2 & ->). exists ((a, "") :: g). split; [cbn; rewrite G1; reflexivity|]. split; [intros b w [Hin|Hin]; [injection Hin as _ <-; apply gap_nil|exact (G2 b w Hin)]|].
      unfold quoted. cbn [map cat fst snd]. rewrite !sapp_assoc. reflexivity.
Qed.
Lemma value_names float lists good indent l : l <> [] -> (forall t, In t l -> quotable "'" t) -> exists s, namesText indent "[" l = (s ++ NL)%string /\ valueText float lists good s (pyNames l).
Proof.
  intros N Q. destruct (exists_last N) as (l' & x & ->). destruct (namesText_items indent l' x "[") as (g & G1 & G2 & ->). exists ("[" ++ cat (map (fun aw => quoted (fst aw) ++ "," ++ snd aw) g) ++ quoted x ++ "]")%string. split; [rewrite !sapp_assoc; reflexivity|].
  pose proof (value_seq float lists good "[" "]" quoted VStr g x (or_introl (conj eq_refl eq_refl)) ltac:(discriminate)) as V. rewrite G1 in V. apply V; [|exact G2]. intros t Hin. apply value_text; [left; reflexivity|apply Q, Hin].
Qed.
Lemma processNames_items n : forall i, 0 <= i -> processNames (Datatypes.S n) i = ((if Z.eqb i 0 then "" else blanks 13) ++ items processName (NL ++ blanks 13) (zseq i n) ++ processName (i + Z.of_nat n) ++ "]" ++ NL)%string.
Proof.
  induction n as [|n IH]; intros i Hi; [cbn [processNames zseq items map cat]; rewrite Z.add_0_r; reflexivity|].
  assert (E : processNames (Datatypes.S (Datatypes.S n)) i = ((if Z.eqb i 0 then "" else blanks 13) ++ processName i ++ "," ++ NL ++ processNames (Datatypes.S n) (i + 1))%string) by reflexivity.
  rewrite E, IH by lia. cbn [zseq]. unfold items. cbn [map cat]. replace (i + 1 + Z.of_nat n) with (i + Z.of_nat (Datatypes.S n)) by lia. destruct (Z.eqb_spec (i + 1) 0); [lia|]. rewrite !sapp_assoc. reflexivity.
Qed.
Section Run.
Context (U : Z) (HU : 0 < U).
Notation flo := (floatOf U).
Notation ex := (exec (floatOf U) (construct U)).
Definition vars_ := list (string * pyval).
Lemma value_ff lists good x : shortDecimal 7 U x -> valueText flo lists good (ff U x) (VFloat (FNum x)).
Proof using HU. intros H. destruct (fmtE_denotes 15 6 U x ltac:(lia) HU) as (m & k & D & _ & E). eapply value_float; [exact D|]. apply floatOf_exact, E, H. Qed.
Lemma value_vector lists good c : shortVector U c -> valueText flo lists good (vectorText U c) (pyv c).
Proof using HU. intros (X & Y & Z). unfold vectorText. apply (value_three flo lists good); apply value_ff; assumption. Qed.
Lemma value_move lists good iv : shortVector U (snd iv) -> valueText flo lists good (moveText U iv) (VTuple [VInt (fst iv); pyv (snd iv)]).
Proof using HU.
  intros H. pose proof (value_seq flo lists good "(" ")" (fun p : string * pyval => fst p) snd [((blanks 1 ++ fmt2i (fst iv))%string, VInt (fst iv), "")] (vectorText U (snd iv), pyv (snd iv)) (or_intror (conj eq_refl eq_refl)) ltac:(discriminate)) as V.
  cbn [map fst snd app cat] in V. rewrite !sapp_assoc in V. unfold moveText. apply V.
  - intros p [<-|[<-|[]]]; [apply value_blanks; unfold fmt2i, padLeft; apply value_blanks, value_int|apply value_vector, H].
  - intros p w [E|[]]. injection E as _ <-. apply gap_nil.
Qed.
(** ** Running pieces of a script *)
Definition does (s : string) (vars : vars_) (objs : list object) (vars' : vars_) (objs' : list object) : Prop :=
  exists cs, fileOf s cs /\ ofoldl ex cs (mkState vars objs true) = Ok (mkState vars' objs' true).
Lemma ofoldl_app {S B} (f : S -> B -> outcome S) l1 l2 s : ofoldl f (l1 ++ l2) s = (try s1 <- ofoldl f l1 s ;; ofoldl f l2 s1).
Proof. revert s. induction l1 as [|a l1 IH]; intros s; [reflexivity|]. cbn [app ofoldl]. destruct (f s a); cbn [MPy.obind]; [apply IH|reflexivity]. Qed.
Lemma does_app a b v o v1 o1 v2 o2 : does a v o v1 o1 -> does b v1 o1 v2 o2 -> does (a ++ b) v o v2 o2.
Proof. intros (c1 & F1 & E1) (c2 & F2 & E2). exists (c1 ++ c2). split; [apply fileOf_app; assumption|]. rewrite ofoldl_app, E1. exact E2. Qed.
Lemma does_none s v o : fileOf s [] -> does s v o v o. Proof. intros F. exists []. split; [exact F|reflexivity]. Qed.
Lemma does_blank v o : does NL v o v o. Proof. apply does_none, fileOf_blank. Qed.
Lemma does_heading t v o : scan Start 0 ("# " ++ t ++ NL) = Some ([TEnd], Start, O) -> does (heading t) v o v o.
Proof.
  intros E. apply does_none. change (heading t) with (NL ++ (rule ++ NL) ++ "# " ++ t ++ NL ++ NL)%string. replace ("# " ++ t ++ NL ++ NL)%string with (("# " ++ t ++ NL) ++ NL)%string by (rewrite !sapp_assoc; reflexivity).
  apply (fileOf_app NL _ [] []); [apply fileOf_blank|]. apply (fileOf_app (rule ++ NL) _ [] []); [apply fileOf_comment; reflexivity|]. apply (fileOf_app ("# " ++ t ++ NL) NL [] []); [apply fileOf_comment; exact E|apply fileOf_blank].
Qed.
Lemma does_set h x s v vars objs : scan Start 0 h = Some ([TName x; TSym "="], Idle, O) -> valueText flo false (eq vars) s v -> does (h ++ s ++ NL) vars objs (setVar vars x v) objs.
Proof.
  intros E (ts & e & C & P & V). exists [SSet x e]. split; [apply (fileOf_set h x s e ts); assumption|]. cbn [ofoldl exec st_vars]. rewrite (V vars eq_refl). reflexivity.
Qed.
(** a call with keyword arguments: the name, the text and the value of each *)
Definition argText (a : string * string * pyval) : string := (fst (fst a) ++ "=" ++ snd (fst a))%string.
Lemma choose_args (vars : vars_) (l : list (string * string * pyval)) : (forall k s v, In (k, s, v) l -> (forall d, scan Idle d (k ++ "=") = Some ([TName k; TSym "="], Idle, d)) /\ valueText flo true (eq vars) s v) ->
  exists m : list (string * expr * list tok * (string * string * pyval)), map snd m = l /\ (forall k e ts a, In (k, e, ts, a) m -> k = fst (fst a) /\ closes (argText a) (TName k :: TSym "=" :: ts) /\ parses e ts /\ evalExpr flo true vars e = Some (snd a)).
Proof.
  induction l as [|[[k s] v] l IH]; intros H; [exists []; split; [reflexivity|intros ? ? ? ? []]|]. destruct (H k s v (or_introl eq_refl)) as (K & ts & e & C & P & V). destruct IH as (m & M1 & M2); [intros; eapply H; right; eassumption|].
  exists ((k, e, ts, (k, s, v)) :: m). split; [cbn; rewrite M1; reflexivity|]. intros k' e' ts' a' [Hin|Hin]; [|exact (M2 _ _ _ _ Hin)]. injection Hin as <- <- <- <-. cbn [fst snd]. split; [reflexivity|]. split; [|split; [exact P|apply V; reflexivity]].
  unfold argText. cbn [fst snd]. replace (k ++ "=" ++ s)%string with ((k ++ "=") ++ s)%string by (rewrite sapp_assoc; reflexivity). apply (lexed_closes_app (k ++ "=") s [TName k; TSym "="] ts); [apply lexed_run; exact K|exact C].
Qed.
Lemma does_call h x cls l y vars objs o : scan Start 0 h = Some ([TName x; TSym "="; TName cls; TSym "("], Idle, 1%nat) ->
  (forall k s v, In (k, s, v) (l ++ [y]) -> (forall d, scan Idle d (k ++ "=") = Some ([TName k; TSym "="], Idle, d)) /\ valueText flo true (eq vars) s v) ->
  construct U objs cls (map (fun a => (fst (fst a), snd a)) (l ++ [y])) = Ok o ->
  does (h ++ items argText (NL ++ blanks 4) l ++ argText y ++ ")" ++ NL) vars objs (setVar vars x (VOther (zlen objs))) (objs ++ [o]).
Proof.
  intros E H K. destruct (choose_args vars (l ++ [y]) H) as (m & M1 & M2). destruct (exists_last (l := m)) as (m1 & z & ->); [intros ->; destruct l; discriminate|]. rewrite map_app in M1. cbn [map] in M1. apply app_inj_tail in M1. destruct M1 as [M1 Mz].
  exists [SCall x cls (map fst (map fst (m1 ++ [z])))]. split.
  - apply (fileOf_stmt _ _ _ (stmt_call x cls (map fst (m1 ++ [z])) ltac:(rewrite map_app; destruct m1; discriminate) ltac:(intros k e ts Hin; apply in_map_iff in Hin; destruct Hin as ([[[k' e'] ts'] a] & E' & Hin); cbn in E'; injection E' as -> -> ->; exact (proj1 (proj2 (proj2 (M2 _ _ _ _ Hin))))))).
    rewrite (run_front _ _ _ _ _ _ _ E). rewrite items_pairs, <- M1, <- Mz. change (")" ++ NL)%string with (String ")" NL).
    pose proof (lexItems (fun b : string * expr * list tok * (string * string * pyval) => argText (snd b)) (fun b => TName (fst (fst (fst b))) :: TSym "=" :: snd (fst b)) "(" ")" (map (fun b => (b, (NL ++ blanks 4)%string)) m1) (or_intror (conj eq_refl eq_refl)) z O NL) as L.
    rewrite !map_map in L. cbn [fst snd] in L. rewrite map_id in L. rewrite !map_map. cbn [fst snd]. rewrite L.
    + change (scan Idle 0 NL) with (Some ([TEnd], Start, O)). cbn [prepend Base.obind app]. rewrite <- app_assoc. cbn [app]. reflexivity.
    + intros [[[k e] ts] a] Hin. cbn [fst snd]. exact (proj1 (proj2 (M2 _ _ _ _ Hin))).
    + intros b w Hin. apply in_map_iff in Hin. destruct Hin as (b' & E' & _). injection E' as _ <-. exact (gap_break 4).
  - cbn [ofoldl exec st_imported st_vars st_objs].
    assert (EV : omap (fun a : string * expr => v <- evalExpr flo true vars (snd a) ;; Some (fst a, v)) (map fst (map fst (m1 ++ [z]))) = Some (map (fun a => (fst (fst a), snd a)) (l ++ [y]))).
    { replace (l ++ [y]) with (map snd (m1 ++ [z])) by (rewrite map_app, M1; cbn [map]; rewrite Mz; reflexivity). clear - M2. induction (m1 ++ [z]) as [|[[[k e] ts] a] m IH]; [reflexivity|]. destruct (M2 _ _ _ _ (or_introl eq_refl)) as (-> & _ & _ & EV). cbn [map fst snd omap]. rewrite EV. cbn [Base.obind]. rewrite IH by (intros; apply M2; right; assumption). reflexivity. }
    rewrite EV. cbn [tryEval MPy.obind]. rewrite K. reflexivity.
Qed.

(** ** The unit cell and the lattice *)
Lemma KMCUnitCell_again cv bp u : KMCUnitCell U cv bp = Ok u -> let '(a, b, c) := uc_vectors u in KMCUnitCell U (pyCoords [a; b; c]) (pyCoords (uc_basis u)) = Ok u /\ uc_basis u <> [].
Proof.
  unfold KMCUnitCell, checkCellVectors. intros H. destruct (checkCoordinateList cv) as [l|]; cbn [MPy.obind] in H; [|discriminate]. destruct l as [|a [|b [|c [|]]]]; try discriminate. destruct (100000 * det3 a b c <? U * U * U) eqn:D; cbn [MPy.obind] in H; [discriminate|].
  destruct (checkCoordinateList bp) as [bs|] eqn:EB; cbn [MPy.obind] in H; [|discriminate]. apply checkCoordinateList_ne in EB. destruct (forallb _ bs) eqn:F; [|discriminate]. injection H as <-. cbn [uc_vectors uc_basis]. split; [|exact EB].
  rewrite checkCoordinateList_py by discriminate. cbn [MPy.obind]. rewrite D. cbn [MPy.obind]. rewrite checkCoordinateList_py by exact EB. cbn [MPy.obind]. rewrite F. reflexivity.
Qed.
Definition cellText (a b c : coord) : string := ("[" ++ items (vectorText U) (NL ++ blanks 16) [a; b] ++ vectorText U c ++ "]")%string.
Lemma does_cell u vars objs : (let '(a, b, c) := uc_vectors u in KMCUnitCell U (pyCoords [a; b; c]) (pyCoords (uc_basis u)) = Ok u /\ uc_basis u <> [] /\ shortVector U a /\ shortVector U b /\ shortVector U c) -> (forall r, In r (uc_basis u) -> shortVector U r) ->
  exists vars', does (unitCellScript U "unit_cell" u) vars objs vars' (objs ++ [OCell u]) /\ getVar vars' "unit_cell" = Some (VOther (zlen objs)).
Proof using HU.
  destruct u as [[[a b] c] bs]. cbn [uc_vectors uc_basis]. intros (K & N & A & B & C) R. destruct (exists_last N) as (l & x & ->). unfold unitCellScript. cbn [uc_vectors uc_basis]. rewrite basisText_items. cbv zeta.
  set (v1 := setVar vars "cell_vectors" (pyCoords [a; b; c])). set (v2 := setVar v1 "basis_points" (pyCoords (l ++ [x]))). exists (setVar v2 "unit_cell" (VOther (zlen objs))). split; [|rewrite getVar_set; reflexivity].
  apply (does_app _ _ vars objs vars objs); [apply does_heading; reflexivity|].
  match goal with |- does (?s ++ NL ++ ?t ++ NL ++ ?r) _ _ _ _ => apply (does_app s (NL ++ t ++ NL ++ r) vars objs v1 objs) end.
  { replace ("cell_vectors = [" ++ vectorText U a ++ "," ++ NL ++ blanks 16 ++ vectorText U b ++ "," ++ NL ++ blanks 16 ++ vectorText U c ++ "]" ++ NL)%string with ("cell_vectors = " ++ cellText a b c ++ NL)%string by (unfold cellText, items; cbn [map cat]; rewrite !sapp_assoc; reflexivity).
    apply does_set; [reflexivity|]. apply (value_items flo false (eq vars) (vectorText U) pyv (NL ++ blanks 16) [a; b] c (gap_break 16)). intros r Hr. apply value_vector. destruct Hr as [<-|[<-|[<-|[]]]]; assumption. }
  apply (does_app NL _ v1 objs v1 objs); [apply does_blank|].
  match goal with |- does (?s ++ NL ++ ?r) _ _ _ _ => apply (does_app s (NL ++ r) v1 objs v2 objs) end.
  { replace ("basis_points = [" ++ "" ++ items (vectorText U) (NL ++ blanks 16) l ++ vectorText U x ++ "]" ++ NL)%string with ("basis_points = " ++ ("[" ++ items (vectorText U) (NL ++ blanks 16) l ++ vectorText U x ++ "]") ++ NL)%string by (rewrite !sapp_assoc; reflexivity).
    apply does_set; [reflexivity|]. apply (value_items flo false (eq v1) (vectorText U) pyv (NL ++ blanks 16) l x (gap_break 16)). intros r Hr. apply value_vector, R, Hr. }
  apply (does_app NL _ v2 objs v2 objs); [apply does_blank|].
  pose proof (does_call ("unit_cell = KMCUnitCell(" ++ NL ++ "    ") "unit_cell" "KMCUnitCell" [("cell_vectors", "cell_vectors", pyCoords [a; b; c])] ("basis_points", "basis_points", pyCoords (l ++ [x])) v2 objs (OCell (mkUC (a, b, c) (l ++ [x]))) eq_refl) as D.
  apply D.
  - intros k s v [E|[E|[]]]; injection E as <- <- <-; (split; [reflexivity|]); apply value_var; try reflexivity; unfold v2, v1; rewrite !getVar_set; reflexivity.
  - cbn [map app fst snd]. change (construct U objs "KMCUnitCell" [("cell_vectors", pyCoords [a; b; c]); ("basis_points", pyCoords (l ++ [x]))]) with (try u <- KMCUnitCell U (pyCoords [a; b; c]) (pyCoords (l ++ [x])) ;; Ok (OCell u)). rewrite K. reflexivity.
Qed.
Lemma value_triple {A} lists good (tx : A -> string) (val : A -> pyval) w a b c : gap w -> (forall x, valueText flo lists good (tx x) (val x)) -> valueText flo lists good ("(" ++ tx a ++ "," ++ w ++ tx b ++ "," ++ w ++ tx c ++ ")") (VTuple [val a; val b; val c]).
Proof.
  intros G H. pose proof (value_seq flo lists good "(" ")" tx val [(a, w); (b, w)] c (or_intror (conj eq_refl eq_refl)) ltac:(discriminate)) as V. cbn [map fst snd app cat] in V. rewrite !sapp_assoc in V. apply V; [intros; apply H|]. intros p w' [E|[E|[]]]; injection E as _ <-; exact G.
Qed.
Lemma KMCLattice_again u r p kl : KMCLattice U (Some u) r p = Ok kl -> kl_cell kl = u /\ KMCLattice U (Some u) (VTuple [VInt (lt_ra (kl_lat kl)); VInt (lt_rb (kl_lat kl)); VInt (lt_rc (kl_lat kl))]) (VTuple [VBool (lt_pa (kl_lat kl)); VBool (lt_pb (kl_lat kl)); VBool (lt_pc (kl_lat kl))]) = Ok kl /\
  1 <= lt_ra (kl_lat kl) /\ 1 <= lt_rb (kl_lat kl) /\ 1 <= lt_rc (kl_lat kl) /\ lt_nb (kl_lat kl) = zlen (uc_basis u).
Proof.
  cbn [KMCLattice]. intros H. destruct (checkRepetitions r) as [[[ra rb] rc]|] eqn:ER; cbn [MPy.obind] in H; [|discriminate]. destruct (checkPeriodic p) as [[[pa pb] pc]|]; cbn [MPy.obind] in H; [|discriminate]. injection H as <-. cbn [kl_cell kl_lat lt_ra lt_rb lt_rc lt_pa lt_pb lt_pc lt_nb].
  assert (P : 1 <= ra /\ 1 <= rb /\ 1 <= rc).
  { unfold checkRepetitions in ER. destruct (match r with VNone => _ | _ => _ end) as [l|]; cbn [MPy.obind] in ER; [|discriminate]. destruct (negb _); [discriminate|]. destruct (oall _ l) as [ns|]; cbn [MPy.obind] in ER; [|discriminate]. destruct (existsb _ ns) eqn:EX; [discriminate|]. destruct ns as [|a [|b [|c [|]]]]; try discriminate. injection ER as -> -> ->. cbn [existsb] in EX. apply orb_false_iff in EX. destruct EX as [E1 EX]. apply orb_false_iff in EX. destruct EX as [E2 EX]. apply orb_false_iff in EX. destruct EX as [E3 _]. apply Z.ltb_ge in E1, E2, E3. lia. }
  destruct P as (P1 & P2 & P3). split; [reflexivity|]. split; [|auto]. unfold checkRepetitions, checkPeriodic, seqOf. cbn [asSeq MPy.obind oall asInt existsb]. change (zlen [VInt ra; VInt rb; VInt rc]) with 3. change (zlen [VBool pa; VBool pb; VBool pc]) with 3. change (negb (3 =? 3)) with false. cbv iota. cbn [existsb].
  destruct (Z.ltb_spec ra 1), (Z.ltb_spec rb 1), (Z.ltb_spec rc 1); try lia. reflexivity.
Qed.
Lemma does_lattice kl vars objs : latticeMade U kl -> shortLattice U kl -> exists vars', does (latticeScript U "lattice" kl) vars objs vars' (objs ++ [OCell (kl_cell kl); OLattice kl]) /\ getVar vars' "lattice" = Some (VOther (zlen objs + 1)).
Proof using HU.
  intros (cv & bp & u & r & p & HC & HL) [S1 S2]. apply KMCUnitCell_again in HC. apply KMCLattice_again in HL. destruct HL as (E & HL & _). rewrite E in *. subst u.
  destruct (does_cell (kl_cell kl) vars objs) as (v1 & D1 & G1); [destruct (uc_vectors (kl_cell kl)) as [[a b] c]; tauto|exact S2|].
  exists (setVar v1 "lattice" (VOther (zlen objs + 1))). split; [|rewrite getVar_set; reflexivity]. unfold latticeScript. apply (does_app _ _ vars objs v1 (objs ++ [OCell (kl_cell kl)])); [exact D1|]. eapply does_app; [apply does_heading; reflexivity|].
  set (L := kl_lat kl) in *. set (rt := ("(" ++ showZ (lt_ra L) ++ "," ++ showZ (lt_rb L) ++ "," ++ showZ (lt_rc L) ++ ")")%string). set (ft := flagsText (lt_pa L) (lt_pb L) (lt_pc L)).
  pose proof (does_call ("lattice = KMCLattice(" ++ NL ++ "    ") "lattice" "KMCLattice" [("unit_cell", "unit_cell", VOther (zlen objs)); ("repetitions", rt, VTuple [VInt (lt_ra L); VInt (lt_rb L); VInt (lt_rc L)])] ("periodic", ft, VTuple [VBool (lt_pa L); VBool (lt_pb L); VBool (lt_pc L)])
    v1 (objs ++ [OCell (kl_cell kl)]) (OLattice kl) eq_refl) as D.
  replace (zlen objs + 1) with (zlen (objs ++ [OCell (kl_cell kl)])) by (rewrite zlen_app; reflexivity). change [OCell (kl_cell kl); OLattice kl] with ([OCell (kl_cell kl)] ++ [OLattice kl]). rewrite app_assoc.
  match type of D with _ -> _ -> does ?s _ _ _ _ => match goal with |- does ?t _ _ _ _ => replace t with s end end; [apply D| ].
  - intros k s v [X|[X|[X|[]]]]; injection X as <- <- <-; (split; [reflexivity|]).
    + apply value_var; [reflexivity..|exact G1].
    + apply (value_triple true (eq v1) showZ VInt "" _ _ _ gap_nil). intros z. apply value_int.
    + apply (value_triple true (eq v1) boolText VBool " " _ _ _ (gap_blanks 1)). intros z. apply value_bool.
  - cbn [map app fst snd]. match goal with |- ?c = _ => change c with (try kl <- KMCLattice U (match objectAt (objs ++ [OCell (kl_cell kl)]) (VOther (zlen objs)) with Some (OCell u) => Some u | _ => None end) (VTuple [VInt (lt_ra L); VInt (lt_rb L); VInt (lt_rc L)]) (VTuple [VBool (lt_pa L); VBool (lt_pb L); VBool (lt_pc L)]) ;; Ok (OLattice kl)) end.
    cbn [objectAt]. rewrite zget_app_at, HL. reflexivity.
  - unfold items, argText, rt. cbn [map cat fst snd]. rewrite !sapp_assoc. reflexivity.
Qed.

(** ** The configuration *)
Lemma longTypes_zlen L l d ts : 0 <= nsites L -> longTypes L l d = Ok ts -> zlen ts = nsites L.
Proof.
  unfold longTypes. intros N. destruct d as [| | | |s| | |]; try discriminate. assert (Z0 : zlen (repeat s (Z.to_nat (nsites L))) = nsites L) by (unfold zlen; rewrite repeat_length; lia). revert Z0. generalize (repeat s (Z.to_nat (nsites L))). induction l as [|t l IH]; intros acc Z0 H; cbn [ofoldl] in H; [injection H as <-; exact Z0|].
  destruct (setLong L acc t) as [acc'|] eqn:E; cbn [MPy.obind] in H; [|discriminate]. apply (IH acc'); [|exact H]. unfold setLong in E.
  repeat match type of E with match ?x with _ => _ end = _ => destruct x eqn:?; try discriminate | (if ?x then _ else _) = _ => destruct x eqn:?; try discriminate end.
  injection E as <-. match goal with Hz : zset acc _ _ = Some _ |- _ => apply zset_len in Hz; rewrite Hz; exact Z0 end.
Qed.
Lemma KMCConfiguration_again L types default possible kc ts : 0 < nsites L -> KMCConfiguration U L types default possible = Ok kc -> kc_types kc = KPlain ts -> distinctTypes possible ->
  exists names, filter (fun t => negb (String.eqb t "*")) (map fst (kc_possible kc)) = names /\ names <> [] /\ ts <> [] /\ KMCConfiguration U L (pyNames ts) VNone (pyNames names) = Ok kc.
Proof.
  intros N H T D.
  assert (X : zlen ts = nsites L /\ possibleTypes possible (sortedSet ts) = Ok (kc_possible kc)).
  { unfold KMCConfiguration in H. destruct types as [| | | | |l| |]; try discriminate. destruct (detectTypesFormat l) as [[| |]|]; cbn [MPy.obind] in H; [| | |discriminate].
    - destruct default; try discriminate. destruct (checkTypes l (nsites L)) as [ts'|] eqn:EC; cbn [MPy.obind] in H; [|discriminate]. destruct (possibleTypes possible (sortedSet ts')) as [pt|] eqn:EP; cbn [MPy.obind] in H; [|discriminate]. injection H as <-. cbn in T. injection T as ->. apply checkTypes_inv in EC. destruct EC as [_ EC]. split; [exact EC|exact EP].
    - destruct (longTypes L l default) as [ts'|] eqn:EC; cbn [MPy.obind] in H; [|discriminate]. destruct (possibleTypes possible (sortedSet ts')) as [pt|] eqn:EP; cbn [MPy.obind] in H; [|discriminate]. injection H as <-. cbn in T. injection T as ->. apply longTypes_zlen in EC; [|lia]. split; [exact EC|exact EP].
    - destruct default; try discriminate. destruct (oall (normaliseEntry U) l) as [tb|]; cbn [MPy.obind] in H; [|discriminate]. destruct (bucketNames tb) as [nb|]; cbn [MPy.obind] in H; [|discriminate]. destruct (possibleTypes possible (sortedSet nb)) as [pt|]; cbn [MPy.obind] in H; [|discriminate]. injection H as <-. discriminate. }
  destruct X as [ZT P]. assert (NT : ts <> []) by (intros ->; cbn in ZT; lia). apply possibleTypes_cases in P. destruct P as [F EP]. set (names := possibleNames possible ts) in *.
  assert (NS : ~ In "*" names /\ (forall t, In t ts -> In t names)). { unfold names. destruct F as [[-> F]|(ns & -> & F1 & F2)]; cbn [possibleNames]; [split; [rewrite sortedSet_In; exact F|intros t; apply sortedSet_In]|]. rewrite flat_strs. split; [exact F1|exact F2]. }
  destruct NS as [NS IN]. assert (NN : NoDup names). { unfold names. destruct D as [->|(ns & -> & D)]; cbn [possibleNames]; [apply sortedSet_NoDup|]. cbn [pyNames possibleNames]. rewrite flat_strs. exact D. }
  assert (EF : map fst (kc_possible kc) = "*" :: names). { rewrite EP, dictZip_nodup by (constructor; assumption). apply combine_fst, zrange_length. }
  exists names. split; [rewrite EF; cbn [filter]; change (String.eqb "*" "*") with true; cbn [negb]; apply forallb_filter_id; apply forallb_forall; intros t Ht; destruct (String.eqb_spec t "*") as [->|]; [contradiction|reflexivity]|]. split; [destruct ts as [|t ts']; [contradiction|]; intros E; specialize (IN t (or_introl eq_refl)); rewrite E in IN; destruct IN|].
  split; [exact NT|]. unfold KMCConfiguration, pyNames. unfold detectTypesFormat. rewrite strs_all. cbn [MPy.obind]. rewrite <- ZT, checkTypes_ok. cbn [MPy.obind].
  assert (FF : possibleFits (VList (map VStr names)) ts) by (right; exists names; split; [reflexivity|]; split; [exact NS|exact IN]). apply possibleTypes_ok in FF. cbn [possibleNames] in FF. rewrite flat_strs in FF. rewrite FF. cbn [MPy.obind]. rewrite <- EP, <- T. destruct kc; reflexivity.
Qed.
Lemma does_config kl kc ts : latticeMade U kl -> shortLattice U kl -> configMade U kl kc ts -> (forall t, In t ts \/ In t (map fst (kc_possible kc)) -> quotable "'" t) -> exists s, configurationScript U "configuration" kl kc = Ok s /\
  forall vars objs, exists vars', does s vars objs vars' (objs ++ [OCell (kl_cell kl); OLattice kl; OConfig kl kc]) /\ getVar vars' "configuration" = Some (VOther (zlen objs + 2)).
Proof using HU.
  intros ML SL (T & types & default & possible & MC & DT) Q.
  assert (N : 0 < nsites (kl_lat kl)). { destruct ML as (cv & bp & u & r & p & HC & HL). apply KMCUnitCell_again in HC. apply KMCLattice_again in HL. destruct HL as (_ & _ & R1 & R2 & R3 & R4). unfold nsites. rewrite R4. assert (0 < zlen (uc_basis u)); [|nia]. destruct (uc_vectors u) as [[a b] c]. destruct HC as [_ HC]. destruct (uc_basis u); [contradiction|]. rewrite zlen_cons. pose proof (zlen_nonneg l). lia. }
  destruct (KMCConfiguration_again _ _ _ _ _ _ N MC T DT) as (names & EN & NN & NT & K). unfold configurationScript. rewrite T. cbn [MPy.obind]. rewrite EN. eexists. split; [reflexivity|]. intros vars objs.
  destruct (does_lattice kl vars objs ML SL) as (v1 & D1 & G1). set (o1 := objs ++ [OCell (kl_cell kl); OLattice kl]) in *. set (v2 := setVar v1 "types" (pyNames ts)). set (v3 := setVar v2 "possible_types" (pyNames names)). exists (setVar v3 "configuration" (VOther (zlen objs + 2))). split; [|rewrite getVar_set; reflexivity].
  destruct (value_names flo false (eq v1) 9 ts NT ltac:(intros t Ht; apply Q; left; exact Ht)) as (s1 & -> & V1). destruct (value_names flo false (eq v2) 18 names NN) as (s2 & -> & V2). { intros t Ht. apply Q. right. rewrite <- EN in Ht. apply filter_In in Ht. apply Ht. }
  eapply does_app; [exact D1|]. eapply does_app; [apply does_heading; reflexivity|].
  match goal with |- does ?t _ _ _ _ => replace t with (("types = " ++ s1 ++ NL) ++ NL ++ ("possible_types = " ++ s2 ++ NL) ++ NL ++ "configuration = KMCConfiguration(" ++ NL ++ "    lattice=lattice," ++ NL ++ "    types=types," ++ NL ++ "    possible_types=possible_types)" ++ NL)%string by (rewrite !sapp_assoc; reflexivity) end.
  eapply does_app; [apply (does_set "types = " "types"); [reflexivity|exact V1]|]. fold v2. eapply does_app; [apply does_blank|]. eapply does_app; [apply (does_set "possible_types = " "possible_types"); [reflexivity|exact V2]|]. fold v3. eapply does_app; [apply does_blank|].
  replace (objs ++ [OCell (kl_cell kl); OLattice kl; OConfig kl kc]) with (o1 ++ [OConfig kl kc]) by (unfold o1; rewrite <- app_assoc; reflexivity). replace (zlen objs + 2) with (zlen o1) by (unfold o1; rewrite zlen_app; reflexivity).
  pose proof (does_call ("configuration = KMCConfiguration(" ++ NL ++ "    ") "configuration" "KMCConfiguration" [("lattice", "lattice", VOther (zlen objs + 1)); ("types", "types", pyNames ts)] ("possible_types", "possible_types", pyNames names) v3 o1 (OConfig kl kc) eq_refl) as D. apply D.
  - intros k s v [E|[E|[E|[]]]]; injection E as <- <- <-; (split; [reflexivity|]); apply value_var; try reflexivity; unfold v3, v2; rewrite !getVar_set; try reflexivity. exact G1.
  - cbn [map app fst snd]. match goal with |- ?c = _ => change c with (match zget o1 (zlen objs + 1) with Some (OLattice kl) => try kc <- KMCConfiguration U (kl_lat kl) (pyNames ts) VNone (pyNames names) ;; Ok (OConfig kl kc) | _ => Raise KmcError end) end.
    replace (zget o1 (zlen objs + 1)) with (Some (OLattice kl)); [rewrite K; reflexivity|]. unfold o1. rewrite zget_app_r by lia. replace (zlen objs + 1 - zlen objs) with 1 by lia. reflexivity.
Qed.

(** ** The processes *)
Definition processVars : list string := ["coordinates"; "elements_before"; "elements_after"; "move_vectors"; "basis_sites"; "rate_constant"].
Lemma processName_new j : ~ In (processName j) processVars.
Proof. unfold processVars, processName. cbn [In String.append]. intros H. repeat (destruct H as [H|H]; [discriminate|]). exact H. Qed.
Lemma setVar_other (vars : vars_) x v y : y <> x -> getVar (setVar vars x v) y = getVar vars y.
Proof. intros N. rewrite getVar_set. destruct (String.eqb_spec x y); [congruence|reflexivity]. Qed.
Lemma made_shape p : made U p -> kp_coords p <> [] /\ kp_before p <> [] /\ kp_after p <> [] /\ kp_basis p <> [].
Proof.
  intros (co & be & af & mo & ba & ra & H). apply KMCProcess_inv in H. destruct H as (cs & b & a & mvs & B & EB & ER). assert (NE : 0 < zlen cs). { pose proof (bb_ne _ _ _ _ _ _ _ _ _ _ B) as N. revert N. generalize cs. clear. intros [|c cs] N; [contradiction|]. rewrite zlen_cons. pose proof (zlen_nonneg cs). lia. }
  pose proof (zlen_coords _ _ _ _ _ _ _ _ _ _ B) as L1. pose proof (zlen_before _ _ _ _ _ _ _ _ _ _ B) as L2. pose proof (zlen_after _ _ _ _ _ _ _ _ _ _ B) as L3. repeat split; [intros E; rewrite E in L1; cbn in L1; lia|intros E; rewrite E in L2; cbn in L2; lia|intros E; rewrite E in L3; cbn in L3; lia|].
  intros E. rewrite E in EB. apply checkBasis_py in EB. discriminate.
Qed.
Lemma processHead_run i w : 0 <= i -> scan (InName (processName i)) 0 w = Some ([TName (processName i); TSym "="; TName "KMCProcess"; TSym "("], Idle, 1%nat) -> scan Start 0 (processName i ++ w) = Some ([TName (processName i); TSym "="; TName "KMCProcess"; TSym "("], Idle, 1%nat).
Proof.
  intros H E. unfold processName. rewrite sapp_assoc, (run_front Start 0 "process_" [] (InName "process_") 0) by reflexivity. rewrite prepend_nil, (run_front _ _ _ _ _ _ _ (run_name "process_" 0 (showZ i) (showZ_digits i H))), prepend_nil. exact E.
Qed.
Lemma does_process i p vars objs : U <= 100000000 -> 0 <= i -> made U p -> NoDup (kp_coords p) -> shortProcess U p -> quotableProcess p -> exists vars', does (processScript U (processName i) p) vars objs vars' (objs ++ [OProcess p]) /\
  getVar vars' (processName i) = Some (VOther (zlen objs)) /\ forall y, ~ In y processVars -> y <> processName i -> getVar vars' y = getVar vars y.
Proof using HU.
  intros HU8 Hi M ND (S1 & S2 & S3) Q. pose proof (KMCProcess_again U p (conj HU HU8) M ND) as K. destruct (made_shape p M) as (N1 & N2 & N3 & N4). destruct (exists_last N1) as (lc & xc & EC). destruct (exists_last N4) as (lb & xb & EB).
  set (mv := match kp_moves p with [] => VNone | l => pyMoves l end) in *. set (v1 := setVar vars "coordinates" (pyCoords (kp_coords p))). set (v2 := setVar v1 "elements_before" (pyNames (kp_before p))). set (v3 := setVar v2 "elements_after" (pyNames (kp_after p))). set (v4 := setVar v3 "move_vectors" mv).
  set (v5 := setVar v4 "basis_sites" (pyBasis (kp_basis p))). set (v6 := setVar v5 "rate_constant" (VFloat (FNum (kp_rate p)))). exists (setVar v6 (processName i) (VOther (zlen objs))). split; [|split; [rewrite getVar_set, String.eqb_refl; reflexivity|]].
  2:{ intros y Y1 Y2. unfold v6, v5, v4, v3, v2, v1. rewrite !setVar_other by (first [exact Y2|intros ->; apply Y1; unfold processVars; cbn [In]; tauto]). reflexivity. }
  destruct (value_names flo false (eq v1) 19 (kp_before p) N2 ltac:(intros t Ht; apply Q; left; exact Ht)) as (s1 & E1 & V1). destruct (value_names flo false (eq v2) 19 (kp_after p) N3 ltac:(intros t Ht; apply Q; right; exact Ht)) as (s2 & E2 & V2).
  assert (MV : exists s3, (match kp_moves p with [] => "None" ++ NL | mvs => "[" ++ movesText U mvs end)%string = (s3 ++ NL)%string /\ valueText flo false (eq v3) s3 mv).
  { destruct (kp_moves p) as [|m l] eqn:EM; [exists "None"; split; [reflexivity|apply value_keyword; reflexivity]|]. destruct (exists_last (l := m :: l) ltac:(discriminate)) as (l' & x & EL). replace mv with (pyMoves (l' ++ [x])) by (unfold mv; rewrite <- EL; reflexivity). rewrite EL in S2 |- *. rewrite movesText_items.
    exists ("[" ++ items (moveText U) (NL ++ blanks 19) l' ++ moveText U x ++ "]")%string. split; [rewrite !sapp_assoc; reflexivity|]. apply (value_items flo false (eq v3) (moveText U) (fun iv => VTuple [VInt (fst iv); pyv (snd iv)]) (NL ++ blanks 19) l' x (gap_break 19)). intros iv Hin. apply value_move, S2, Hin. }
  destruct MV as (s3 & E3 & V3). unfold processScript. rewrite E1, E2, E3, EC, EB, coordsText_items, basisSites_items. cbv iota.
  set (s0 := ("[" ++ items (vectorText U) (NL ++ blanks 15) lc ++ vectorText U xc ++ "]")%string). set (s4 := ("[" ++ items showZ "" lb ++ showZ xb ++ "]")%string).
  match goal with |- does ?t _ _ _ _ => replace t with (("coordinates = " ++ s0 ++ NL) ++ NL ++ ("elements_before = " ++ s1 ++ NL) ++ ("elements_after  = " ++ s2 ++ NL) ++ ("move_vectors    = " ++ s3 ++ NL) ++ ("basis_sites     = " ++ s4 ++ NL) ++ ("rate_constant   = " ++ ff U (kp_rate p) ++ NL) ++ NL ++
     ((processName i ++ (" = KMCProcess(" ++ NL ++ "    ")) ++ items argText (NL ++ blanks 4) [("coordinates", "coordinates", pyCoords (kp_coords p)); ("elements_before", "elements_before", pyNames (kp_before p)); ("elements_after", "elements_after", pyNames (kp_after p)); ("move_vectors", "move_vectors", mv); ("basis_sites", "basis_sites", pyBasis (kp_basis p))] ++
      argText ("rate_constant", "rate_constant", VFloat (FNum (kp_rate p))) ++ ")" ++ NL) ++ NL)%string by (unfold s0, s4, items, argText; cbn [map cat fst snd]; rewrite !sapp_assoc; reflexivity) end.
  eapply does_app; [apply (does_set "coordinates = " "coordinates"); [reflexivity|]|].
  { apply (value_items flo false (eq vars) (vectorText U) pyv (NL ++ blanks 15) lc xc (gap_break 15)). intros c Hc. apply value_vector, S1. rewrite EC. exact Hc. }
  replace (VList (map pyv (lc ++ [xc]))) with (pyCoords (kp_coords p)) by (rewrite EC; reflexivity). fold v1. eapply does_app; [apply does_blank|]. eapply does_app; [apply (does_set "elements_before = " "elements_before"); [reflexivity|exact V1]|]. fold v2.
  eapply does_app; [apply (does_set "elements_after  = " "elements_after"); [reflexivity|exact V2]|]. fold v3. eapply does_app; [apply (does_set "move_vectors    = " "move_vectors"); [reflexivity|exact V3]|]. fold v4.
  eapply does_app; [apply (does_set "basis_sites     = " "basis_sites"); [reflexivity|]|]. { apply (value_items flo false (eq v4) showZ VInt "" lb xb gap_nil). intros z _. apply value_int. }
  replace (VList (map VInt (lb ++ [xb]))) with (pyBasis (kp_basis p)) by (rewrite EB; reflexivity). fold v5. eapply does_app; [apply (does_set "rate_constant   = " "rate_constant"); [reflexivity|apply value_ff, S3]|]. fold v6. eapply does_app; [apply does_blank|]. eapply does_app; [|apply does_blank].
  apply (does_call (processName i ++ (" = KMCProcess(" ++ NL ++ "    ")) (processName i) "KMCProcess").
  - apply processHead_run; [exact Hi|reflexivity].
  - intros k s v Hin. cbn [app In] in Hin. repeat (destruct Hin as [E|Hin]; [injection E as <- <- <-; split; [reflexivity|]; apply value_var; try reflexivity; unfold v6, v5, v4, v3, v2, v1; rewrite !getVar_set; reflexivity|]). destruct Hin.
  - cbn [map app fst snd]. match goal with |- ?c = _ => change c with (try p <- KMCProcess U (pyCoords (kp_coords p)) (pyNames (kp_before p)) (pyNames (kp_after p)) mv (pyBasis (kp_basis p)) (VFloat (FNum (kp_rate p))) ;; Ok (OProcess p)) end. rewrite K. reflexivity.
Qed.
Lemma does_processes l : U <= 100000000 -> (forall p, In p l -> savable U p) -> forall i, 0 <= i -> exists s, processScripts U i (map KPlainP l) = Ok s /\ forall vars objs, exists vars', does s vars objs vars' (objs ++ map OProcess l) /\
  (forall j, i <= j < i + zlen l -> getVar vars' (processName j) = Some (VOther (zlen objs + (j - i)))) /\ forall y, ~ In y processVars -> (forall j, i <= j -> y <> processName j) -> getVar vars' y = getVar vars y.
Proof using HU.
  intros HU8. induction l as [|p l IH]; intros HS i Hi.
  - exists "". split; [reflexivity|]. intros vars objs. exists vars. split; [rewrite app_nil_r; apply does_none, fileOf_nil|]. split; [cbn; lia|auto].
  - destruct (IH ltac:(intros; apply HS; right; assumption) (i + 1) ltac:(lia)) as (s & E & D). cbn [map processScripts]. rewrite E. cbn [MPy.obind]. eexists. split; [reflexivity|]. intros vars objs. destruct (HS p (or_introl eq_refl)) as (M & ND & S & Q).
    destruct (does_process i p vars objs HU8 Hi M ND S Q) as (v1 & D1 & G1 & O1). destruct (D v1 (objs ++ [OProcess p])) as (v2 & D2 & G2 & O2). exists v2. split; [|split].
    + eapply does_app; [exact D1|]. rewrite <- app_assoc in D2. exact D2.
    + intros j Hj. rewrite zlen_cons in Hj. destruct (Z.eq_dec j i) as [->|].
      * rewrite O2, G1; [f_equal; f_equal; lia|apply processName_new|]. intros j' Hj' EE. apply processName_inj in EE. lia.
      * rewrite G2 by lia. rewrite zlen_app. change (zlen [OProcess p]) with 1. f_equal. f_equal. lia.
    + intros y Y1 Y2. rewrite O2 by (try exact Y1; intros; apply Y2; lia). apply O1; [exact Y1|apply Y2; lia].
Qed.
Lemma objects_processes base l : map (fun v => match objectAt (base ++ map OProcess l) v with Some (OProcess p) => Some (KPlainP p) | _ => None end) (map (fun j => VOther (zlen base + j)) (zrange 0 (zlen l - 1))) = map Some (map KPlainP l).
Proof.
  apply PBase.zget_ext. intros k. rewrite !zget_map, zget_zrange0. destruct (Z.leb_spec 0 k), (Z.ltb_spec k (zlen l)); cbn [andb option_map]; try (rewrite (proj2 (zget_None l k)) by lia; reflexivity).
  cbn [objectAt]. rewrite zget_app_r by lia. replace (zlen base + k - zlen base) with k by lia. rewrite zget_map. destruct (zget_lt l k ltac:(lia)) as [p ->]. reflexivity.
Qed.
Lemma does_interactions ki l : U <= 100000000 -> ki_processes ki = map KPlainP l -> l <> [] -> (forall p, In p l -> savable U p) -> exists s, interactionsScript U "interactions" ki = Ok s /\
  forall vars objs, exists vars', does s vars objs vars' (objs ++ map OProcess l ++ [OInter (mkKI (map KPlainP l) (ki_wild ki) None)]) /\ getVar vars' "interactions" = Some (VOther (zlen objs + zlen l)) /\ getVar vars' "configuration" = getVar vars "configuration".
Proof using HU.
  intros HU8 EL N HS. destruct (does_processes l HU8 HS 0 ltac:(lia)) as (s & E & D). unfold interactionsScript. rewrite EL, E. cbn [MPy.obind]. eexists. split; [reflexivity|]. intros vars objs. destruct (D vars objs) as (v1 & D1 & G1 & O1).
  destruct (length l) as [|n] eqn:LN; [destruct l; [contradiction|discriminate]|]. assert (ZL : zlen l = Z.of_nat n + 1) by (unfold zlen; lia). assert (ZS : zseq 0 n ++ [Z.of_nat n] = zrange 0 (zlen l - 1)) by (rewrite zrange_snoc by lia; f_equal; [unfold zrange; f_equal; lia|f_equal; lia]).
  rewrite map_length, LN, processNames_items by lia. change (if Z.eqb 0 0 then "" else blanks 13) with "". rewrite Z.add_0_l.
  set (pv := VList (map (fun j => VOther (zlen objs + j)) (zrange 0 (zlen l - 1)))). set (v2 := setVar v1 "processes" pv). set (o1 := objs ++ map OProcess l). exists (setVar v2 "interactions" (VOther (zlen o1))). split; [|split].
  - eapply does_app; [apply does_heading; reflexivity|]. eapply does_app; [exact D1|]. set (sp := ("[" ++ items processName (NL ++ blanks 13) (zseq 0 n) ++ processName (Z.of_nat n) ++ "]")%string).
    match goal with |- does ?t _ _ _ _ => replace t with (("processes = " ++ sp ++ NL) ++ NL ++ ("interactions = KMCInteractions(" ++ NL ++ "    ") ++ items argText (NL ++ blanks 4) [("processes", "processes", pv)] ++ argText ("implicit_wildcards", boolText (ki_wild ki), VBool (ki_wild ki)) ++ ")" ++ NL)%string
      by (unfold sp, items at 2, argText; cbn [map cat fst snd]; rewrite !sapp_assoc; reflexivity) end.
    eapply does_app; [apply (does_set "processes = " "processes" sp pv); [reflexivity|]|].
    { unfold pv. rewrite <- ZS. apply (value_items flo false (eq v1) processName (fun j => VOther (zlen objs + j)) (NL ++ blanks 13) (zseq 0 n) (Z.of_nat n) (gap_break 13)). intros j Hj. rewrite ZS in Hj. apply In_zrange in Hj. apply value_object; [intros d; apply processName_run; lia|reflexivity|]. rewrite G1 by lia. f_equal. f_equal. lia. }
    fold v2. eapply does_app; [apply does_blank|]. replace (objs ++ map OProcess l ++ [OInter (mkKI (map KPlainP l) (ki_wild ki) None)]) with (o1 ++ [OInter (mkKI (map KPlainP l) (ki_wild ki) None)]) by (unfold o1; rewrite <- app_assoc; reflexivity).
    apply (does_call ("interactions = KMCInteractions(" ++ NL ++ "    ") "interactions" "KMCInteractions"); [reflexivity| |].
    + intros k t v [X|[X|[]]]; injection X as <- <- <-; (split; [reflexivity|]); [apply value_var; try reflexivity; unfold v2; rewrite getVar_set; reflexivity|apply value_bool].
    + cbn [map app fst snd]. match goal with |- ?c = _ => change c with (try ki <- KMCInteractions (Some (map (fun v => match objectAt o1 v with Some (OProcess p) => Some (KPlainP p) | _ => None end) (map (fun j => VOther (zlen objs + j)) (zrange 0 (zlen l - 1))))) (VBool (ki_wild ki)) None ;; Ok (OInter ki)) end.
      unfold o1. rewrite objects_processes. unfold KMCInteractions. rewrite !zlen_map. destruct (Z.eqb_spec (zlen l) 0); [lia|]. assert (OA : forall m : list kprocess, oall (fun p => match p with Some q => Ok q | None => Raise KmcError end) (map Some m) = Ok m) by (induction m as [|x m IHm]; [reflexivity|]; cbn [map oall MPy.obind]; rewrite IHm; reflexivity). rewrite OA. reflexivity.
  - rewrite getVar_set. change (String.eqb "interactions" "interactions") with true. cbv iota. unfold o1. rewrite zlen_app, zlen_map. reflexivity.
  - unfold v2. rewrite !getVar_set. change (String.eqb "interactions" "configuration") with false. change (String.eqb "processes" "configuration") with false. cbv iota. apply O1.
    + unfold processVars. cbn [In]. intros H. repeat (destruct H as [H|H]; [discriminate|]). exact H.
    + intros j _. unfold processName. discriminate.
Qed.

(** ** The whole script *)
Lemma component {B} (pick : object -> option B) s objs vars b x n : does s [] [] vars objs -> getVar vars x = Some (VOther n) -> (o <- zget objs n ;; pick o) = Some b -> (forall o c, In o objs -> pick o = Some c -> c = b) ->
  scriptComponent U pick (importLine ++ s) = Ok (Some b).
Proof.
  intros (cs & F & E) G PB PO. unfold scriptComponent, execFile. assert (FI : fileOf importLine [SImport]) by (apply (fileOf_stmt _ _ _ stmt_import); reflexivity). rewrite (fileOf_program _ _ (fileOf_app _ _ _ _ FI F)). cbn [tryEval MPy.obind app ofoldl exec st_vars st_objs]. rewrite E. cbn [MPy.obind st_vars st_objs]. f_equal.
  unfold getVar in G. destruct (find (fun yv => String.eqb (fst yv) x) vars) as [[y w]|] eqn:EF; [|discriminate]. injection G as ->. apply find_some in EF. destruct EF as [EF _].
  set (f := fun xv : string * pyval => o <- objectAt objs (snd xv) ;; pick o). assert (IN : In (Some b) (filter (fun o => match o with Some _ => true | None => false end) (map f vars))). { apply filter_In. split; [|reflexivity]. apply in_map_iff. exists (y, VOther n). split; [exact PB|exact EF]. }
  destruct (filter _ (map f vars)) as [|o r] eqn:ER; [destruct IN|]. cbn [hd]. assert (IO : In o (filter (fun o => match o with Some _ => true | None => false end) (map f vars))) by (rewrite ER; left; reflexivity). apply filter_In in IO. destruct IO as [IO OS]. destruct o as [c|]; [|discriminate]. f_equal.
  apply in_map_iff in IO. destruct IO as (xv & EX & _). unfold f in EX. destruct (objectAt objs (snd xv)) as [o|] eqn:EO; [|discriminate]. cbn [Base.obind] in EX. apply (PO o c); [|exact EX]. unfold objectAt in EO. destruct (snd xv); try discriminate. exact (zget_In _ _ _ EO).
Qed.
Lemma does_model kl kc ts ki l : U <= 100000000 -> latticeMade U kl -> shortLattice U kl -> configMade U kl kc ts -> (forall t, In t ts \/ In t (map fst (kc_possible kc)) -> quotable "'" t) -> ki_processes ki = map KPlainP l -> l <> [] -> (forall p, In p l -> savable U p) ->
  exists s vars, modelScript U "model" kl kc ki = Ok s /\ does s [] [] vars ([OCell (kl_cell kl); OLattice kl; OConfig kl kc] ++ map OProcess l ++ [OInter (mkKI (map KPlainP l) (ki_wild ki) None); OModel kl kc (mkKI (map KPlainP l) (ki_wild ki) None)]) /\
    getVar vars "model" = Some (VOther (4 + zlen l)).
Proof using HU.
  intros HU8 ML SL MC Q EL N HS. destruct (does_config kl kc ts ML SL MC Q) as (s1 & E1 & D1). destruct (does_interactions ki l HU8 EL N HS) as (s2 & E2 & D2). unfold modelScript. rewrite E1, E2. cbn [MPy.obind].
  destruct (D1 [] []) as (v1 & R1 & G1). cbn [app] in R1. set (o1 := [OCell (kl_cell kl); OLattice kl; OConfig kl kc]) in *. destruct (D2 v1 o1) as (v2 & R2 & G2 & G3). rewrite G1 in G3. change (zlen (@nil object) + 2) with 2 in G3. change (zlen o1) with 3 in G2.
  set (k' := mkKI (map KPlainP l) (ki_wild ki) None) in *. set (o2 := o1 ++ map OProcess l ++ [OInter k']) in *. assert (Z2 : zlen o2 = 4 + zlen l) by (unfold o2; rewrite !zlen_app, zlen_map; change (zlen o1) with 3; change (zlen [OInter k']) with 1; lia).
  exists (s1 ++ s2 ++ heading "Lattice model" ++ "model = KMCLatticeModel(" ++ NL ++ "    configuration=configuration," ++ NL ++ "    interactions=interactions)" ++ NL)%string, (setVar v2 "model" (VOther (zlen o2))). split; [reflexivity|]. split; [|rewrite getVar_set, Z2; reflexivity].
  eapply does_app; [exact R1|]. eapply does_app; [exact R2|]. eapply does_app; [apply does_heading; reflexivity|]. replace (o1 ++ map OProcess l ++ [OInter k'; OModel kl kc k']) with (o2 ++ [OModel kl kc k']) by (unfold o2; rewrite <- !app_assoc; reflexivity).
  pose proof (does_call ("model = KMCLatticeModel(" ++ NL ++ "    ") "model" "KMCLatticeModel" [("configuration", "configuration", VOther 2)] ("interactions", "interactions", VOther (3 + zlen l)) v2 o2 (OModel kl kc k') eq_refl) as D. apply D.
  - intros k t v [X|[X|[]]]; injection X as <- <- <-; (split; [reflexivity|]); apply value_var; try reflexivity; assumption.
  - cbn [map app fst snd]. match goal with |- ?c = _ => change c with (match zget o2 2, zget o2 (3 + zlen l) with Some (OConfig kl kc), Some (OInter ki) => Ok (OModel kl kc ki) | _, _ => Raise KmcError end) end.
    change (zget o2 2) with (Some (OConfig kl kc)). replace (zget o2 (3 + zlen l)) with (Some (OInter k')); [reflexivity|]. unfold o2. rewrite app_assoc. replace (3 + zlen l) with (zlen (o1 ++ map OProcess l)) by (rewrite zlen_app, zlen_map; reflexivity). symmetry. apply zget_app_at.
Qed.
End Run.
