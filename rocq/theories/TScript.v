(** Theorems about saved scripts: C72. *)
From Verif Require Import PScript.
Open Scope string_scope.
Open Scope list_scope.
Open Scope Z_scope.

(** ** What is read is what was written *)
Theorem C72_configuration U kl kc : 0 < U -> savableConfig U kl kc ->
  exists s, configurationScript U "configuration" kl kc = Ok s /\ configurationFromScript U (importLine ++ s) = Ok (Some (kl, kc)).
Proof.
  intros HU (ML & SL & ts & MC & Q). destruct (does_config U HU kl kc ts ML SL MC Q) as (s & E & D). exists s. split; [exact E|]. destruct (D [] []) as (vars & R & G). cbn [app] in R. change (zlen (@nil object) + 2) with 2 in G.
  apply (component U _ s _ vars (kl, kc) "configuration" 2 R G); [reflexivity|]. intros o c [<-|[<-|[<-|[]]]]; try discriminate. intros X. injection X as <-. reflexivity.
Qed.
Theorem C72_interactions U ki : 0 < U <= 100000000 -> savableInteractions U ki ->
  exists s, interactionsScript U "interactions" ki = Ok s /\ interactionsFromScript U (importLine ++ s) = Ok (Some (withoutCalculator ki)).
Proof.
  intros [HU HU8] (l & EL & N & HS). destruct (does_interactions U HU ki l HU8 EL N HS) as (s & E & D). exists s. split; [exact E|]. destruct (D [] []) as (vars & R & G & _). cbn [app] in R. change (zlen (@nil object) + zlen l) with (zlen l) in G. unfold withoutCalculator. rewrite EL.
  apply (component U _ s _ vars _ "interactions" (zlen l) R G).
  - rewrite <- (zlen_map OProcess l), zget_app_at. reflexivity.
  - intros o c Hin. apply in_app_or in Hin. destruct Hin as [Hin|[<-|[]]]; [apply in_map_iff in Hin; destruct Hin as (p & <- & _); discriminate|]. intros X. injection X as <-. reflexivity.
Qed.
Theorem C72_model U kl kc ki : 0 < U <= 100000000 -> savableConfig U kl kc -> savableInteractions U ki ->
  exists s, modelScript U "model" kl kc ki = Ok s /\ latticeModelFromScript U (importLine ++ s) = Ok (Some (kl, kc, withoutCalculator ki)).
Proof.
  intros [HU HU8] (ML & SL & ts & MC & Q) (l & EL & N & HS). destruct (does_model U HU kl kc ts ki l HU8 ML SL MC Q EL N HS) as (s & vars & E & R & G). exists s. split; [exact E|]. unfold withoutCalculator. rewrite EL. set (k' := mkKI (map KPlainP l) (ki_wild ki) None) in *.
  apply (component U _ s _ vars (kl, kc, k') "model" (4 + zlen l) R G).
  - replace ([OCell (kl_cell kl); OLattice kl; OConfig kl kc] ++ map OProcess l ++ [OInter k'; OModel kl kc k']) with (([OCell (kl_cell kl); OLattice kl; OConfig kl kc] ++ map OProcess l ++ [OInter k']) ++ [OModel kl kc k']) by (rewrite <- !app_assoc; reflexivity).
    replace (4 + zlen l) with (zlen ([OCell (kl_cell kl); OLattice kl; OConfig kl kc] ++ map OProcess l ++ [OInter k'])); [rewrite zget_app_at; reflexivity|]. rewrite !zlen_app, zlen_map. change (zlen [OInter k']) with 1. change (zlen [OCell (kl_cell kl); OLattice kl; OConfig kl kc]) with 3. lia.
  - intros o c Hin. cbn [app In] in Hin. destruct Hin as [<-|[<-|[<-|Hin]]]; try discriminate. apply in_app_or in Hin. destruct Hin as [Hin|[<-|[<-|[]]]]; try discriminate; [apply in_map_iff in Hin; destruct Hin as (p & <- & _); discriminate|]. intros X. injection X as <-. reflexivity.
Qed.
(** Every number is written with a relative error of at most 5e-7, and exactly if it has at most seven digits. *)
Theorem C72_numbers U x : 0 < U -> exists m k, denotes (ff U x) m k /\ nearTo 6 U x m k /\ (shortDecimal 7 U x -> equalTo U x m k).
Proof. intros HU. exact (fmtE_denotes 15 6 U x ltac:(lia) HU). Qed.

(** ** What is lost *)
Definition third : Z := 10000000.
Definition vec (x : Z) : pyval := VList [VFloat (FNum x); VFloat (FNum 0); VFloat (FNum 0)].
Definition names (l : list string) : pyval := VList (map VStr l).
Definition thirds : outcome kproc := KMCProcess (3 * third) (VList [vec 0; vec third; vec (2 * third)]) (names ["C"; "A"; "V"]) (names ["C"; "V"; "A"]) VNone (VList [VInt 0]) (VFloat (FNum (3 * third))).
Definition readBack (U : Z) (o : outcome kproc) : outcome (option kinter) := try p <- o ;; try s <- interactionsScript U "interactions" (mkKI [KPlainP p] true None) ;; interactionsFromScript U (importLine ++ s).
(** a process with a hop from 1/3 to 2/3 of the cell cannot be read again: the written vector does not lead from one written position to the other *)
Theorem C72_thirds_refuted : exists U p s, 0 < U <= 100000000 /\ made U p /\ NoDup (kp_coords p) /\ quotableProcess p /\
  interactionsScript U "interactions" (mkKI [KPlainP p] true None) = Ok s /\ interactionsFromScript U (importLine ++ s) = Raise KmcError.
Proof.
  exists (3 * third). destruct thirds as [p|] eqn:E; [|vm_compute in E; discriminate]. exists p. assert (R : readBack (3 * third) thirds = Raise KmcError) by (vm_compute; reflexivity). unfold readBack in R. rewrite E in R. cbn [MPy.obind] in R.
  destruct (interactionsScript (3 * third) "interactions" (mkKI [KPlainP p] true None)) as [s|] eqn:ES; cbn [MPy.obind] in R; [|vm_compute in E; injection E as <-; vm_compute in ES; discriminate]. exists s. split; [vm_compute; split; congruence|]. split; [pose proof E as EM; unfold thirds in EM; do 6 eexists; exact EM|].
  assert (EP := E). vm_compute in EP. injection EP as EP. split; [rewrite <- EP; cbn [kp_coords]; repeat constructor; cbn [In]; intuition discriminate|]. split; [|auto].
  intros t Ht. rewrite <- EP in Ht. cbn [kp_before kp_after In] in Ht. intros c Hc. assert (X : t = "A" \/ t = "C" \/ t = "V") by intuition. destruct X as [->|[->| ->]]; (destruct Hc as [<-|[]]; repeat split; discriminate).
Qed.
(** a lattice of one cell with the given basis point, and a configuration on it *)
Definition cube (U : Z) : pyval := VList [VList [VFloat (FNum U); VFloat (FNum 0); VFloat (FNum 0)]; VList [VFloat (FNum 0); VFloat (FNum U); VFloat (FNum 0)]; VList [VFloat (FNum 0); VFloat (FNum 0); VFloat (FNum U)]].
Definition oneSite (U x : Z) : outcome klattice := try u <- KMCUnitCell U (cube U) (VList [vec x]) ;; KMCLattice U (Some u) VNone VNone.
Definition oneType (U x : Z) (types possible : list string) : outcome (klattice * kconf) := try kl <- oneSite U x ;; try kc <- KMCConfiguration U (kl_lat kl) (names types) VNone (names possible) ;; Ok (kl, kc).
Definition savedConfig (U : Z) (o : outcome (klattice * kconf)) : outcome (option (klattice * kconf)) := try c <- o ;; try s <- configurationScript U "configuration" (fst c) (snd c) ;; configurationFromScript U (importLine ++ s).
Lemma saved_one U x types possible r : savedConfig U (oneType U x types possible) = r -> (match oneType U x types possible with Ok (kl, kc) => match configurationScript U "configuration" kl kc with Ok _ => true | _ => false end | _ => false end) = true ->
  exists kl kc s default, oneSite U x = Ok kl /\ latticeMade U kl /\ KMCConfiguration U (kl_lat kl) (names types) default (names possible) = Ok kc /\ configurationScript U "configuration" kl kc = Ok s /\ configurationFromScript U (importLine ++ s) = r.
Proof.
  unfold savedConfig. destruct (oneType U x types possible) as [[kl kc]|] eqn:E; cbn [MPy.obind]; [|discriminate]. cbn [fst snd]. destruct (configurationScript U "configuration" kl kc) as [s|] eqn:ES; cbn [MPy.obind]; [|discriminate]. intros R _. exists kl, kc, s, VNone. unfold oneType in E. destruct (oneSite U x) as [kl'|] eqn:EL; cbn [MPy.obind] in E; [|discriminate].
  destruct (KMCConfiguration U (kl_lat kl') (names types) VNone (names possible)) as [kc'|] eqn:EC; cbn [MPy.obind] in E; [|discriminate]. injection E as -> ->. split; [reflexivity|]. split; [|auto]. unfold oneSite in EL. destruct (KMCUnitCell U (cube U) (VList [vec x])) as [u|] eqn:EU; cbn [MPy.obind] in EL; [|discriminate]. do 5 eexists. split; [exact EU|exact EL].
Qed.
(** a basis point just below 1 is written as 1, which the constructor does not accept *)
Theorem C72_near_one_refuted : exists U kl kc s types default possible, 0 < U <= 100000000 /\ latticeMade U kl /\ KMCConfiguration U (kl_lat kl) types default possible = Ok kc /\
  configurationScript U "configuration" kl kc = Ok s /\ configurationFromScript U (importLine ++ s) = Raise KmcError.
Proof.
  destruct (saved_one (10 * third) (10 * third - 1) ["A"] ["A"] (Raise KmcError) ltac:(vm_compute; reflexivity) ltac:(vm_compute; reflexivity)) as (kl & kc & s & d & _ & H1 & H2 & H3 & H4). exists (10 * third), kl, kc, s, (names ["A"]), d, (names ["A"]). split; [vm_compute; split; congruence|auto].
Qed.
Lemma short_int U n : Z.abs n < 10 ^ 7 -> shortDecimal 7 U (n * U). Proof. intros H. exists n, 0. split; [exact H|]. unfold equalTo, tens. cbn. lia. Qed.
Lemma short_cube : forall kl, oneSite 10 0 = Ok kl -> shortLattice 10 kl.
Proof.
  intros kl E. vm_compute in E. injection E as <-. assert (S0 : shortDecimal 7 10 0) by (apply (short_int 10 0); reflexivity). assert (S1 : shortDecimal 7 10 10) by (apply (short_int 10 1); reflexivity). unfold shortLattice, shortVector. cbn. repeat split; auto; destruct H as [<-|[]]; cbn; assumption.
Qed.
(** a name with quotation marks becomes two names *)
Theorem C72_quotes_refuted : exists U kl kc s types default possible, 0 < U <= 100000000 /\ latticeMade U kl /\ shortLattice U kl /\ KMCConfiguration U (kl_lat kl) types default possible = Ok kc /\ distinctTypes possible /\
  configurationScript U "configuration" kl kc = Ok s /\ configurationFromScript U (importLine ++ s) = Raise KmcError.
Proof.
  destruct (saved_one 10 0 ["A','B"] ["A','B"] (Raise KmcError) ltac:(vm_compute; reflexivity) ltac:(vm_compute; reflexivity)) as (kl & kc & s & d & H0 & H1 & H2 & H3 & H4).
  exists 10, kl, kc, s, (names ["A','B"]), d, (names ["A','B"]). split; [lia|]. split; [exact H1|]. split; [apply short_cube; exact H0|]. split; [exact H2|]. split; [right; eexists; split; [reflexivity|repeat constructor; intros []]|auto].
Qed.
(** a repeated name among the possible types changes the numbers of the types *)
Theorem C72_repeated_refuted : exists U kl kc s types default possible kc', 0 < U <= 100000000 /\ latticeMade U kl /\ shortLattice U kl /\ KMCConfiguration U (kl_lat kl) types default possible = Ok kc /\
  configurationScript U "configuration" kl kc = Ok s /\ configurationFromScript U (importLine ++ s) = Ok (Some (kl, kc')) /\ kc_possible kc' <> kc_possible kc.
Proof.
  destruct (savedConfig 10 (oneType 10 0 ["A"] ["A"; "A"; "B"])) as [[[kl' kc']|]|] eqn:ER; [|vm_compute in ER; discriminate..].
  destruct (saved_one 10 0 ["A"] ["A"; "A"; "B"] _ ER ltac:(vm_compute; reflexivity)) as (kl & kc & s & d & H0 & H1 & H2 & H3 & H4). exists 10, kl, kc, s, (names ["A"]), d, (names ["A"; "A"; "B"]), kc'.
  split; [lia|]. split; [exact H1|]. split; [apply short_cube; exact H0|]. split; [exact H2|]. split; [exact H3|]. clear H1 H3. vm_compute in ER. injection ER as <- <-. vm_compute in H0. injection H0 as <-. split; [exact H4|]. clear H4 s.
  destruct d; try (vm_compute in H2; discriminate). vm_compute in H2. injection H2 as <-. cbn. discriminate.
Qed.
(** configurations with buckets and interactions with bucket processes have no script *)
Theorem C72_bucket_configuration_raises U name kl kc b bs : kc_types kc = KBuckets (b :: bs) -> configurationScript U name kl kc = Raise TypeError.
Proof. intros E. unfold configurationScript. rewrite E. reflexivity. Qed.
Theorem C72_bucket_process_raises U name ki b : In (KBucketP b) (ki_processes ki) -> interactionsScript U name ki = Raise AttributeError.
Proof.
  intros H. unfold interactionsScript. assert (E : forall l i, In (KBucketP b) l -> processScripts U i l = Raise AttributeError).
  { induction l as [|[p|q] l IH]; intros i X; [destruct X| |reflexivity]. destruct X as [X|X]; [discriminate|]. cbn [processScripts]. rewrite (IH _ X). reflexivity. }
  rewrite (E _ 0 H). reflexivity.
Qed.

(** ** An example: two sites, one process, a rate with six digits *)
Definition exU : Z := 1000000.
Definition exModel : outcome (klattice * kconf * kinter) :=
  try u <- KMCUnitCell exU (cube exU) (VList [vec 0; vec 250000]) ;;
  try kl <- KMCLattice exU (Some u) (VList [VInt 1; VInt 2; VInt 3]) (VTuple [VBool true; VBool false; VBool true]) ;;
  try kc <- KMCConfiguration exU (kl_lat kl) (names ["A"; "V"; "A"; "V"; "A"; "A"; "A"; "V"; "A"; "V"; "A"; "A"]) VNone (names ["V"; "A"; "it is"]) ;;
  try p <- KMCProcess exU (VList [vec 0; vec 250000]) (names ["A"; "V"]) (names ["V"; "A"]) VNone (VList [VInt 0]) (VFloat (FNum 1234560)) ;;
  Ok (kl, kc, mkKI [KPlainP p; KPlainP p] false (Some (mkPlug None true [] noCalculator))).
Example C72_example : match exModel with
  | Ok (kl, kc, ki) => match modelScript exU "model" kl kc ki with
    | Ok s => match latticeModelFromScript exU (importLine ++ s) with Ok (Some (_, kc', ki')) => kc_types kc' = kc_types kc /\ ki_processes ki' = ki_processes ki /\ ki_plugin ki' = None | _ => False end
    | _ => False end
  | _ => False end.
Proof. vm_compute. repeat split. Qed.
Lemma quotable_dec s : forallb (fun c => negb (Ascii.eqb c "'") && negb (Ascii.eqb c "\") && negb (Ascii.eqb c "010") && negb (Ascii.eqb c "013")) (list_ascii_of_string s) = true -> quotable "'" s.
Proof. intros H c Hc. rewrite forallb_forall in H. specialize (H c Hc). rewrite !andb_true_iff, !negb_true_iff in H. destruct H as [[[H1 H2] H3] H4]. apply Ascii.eqb_neq in H1, H2, H3, H4. auto. Qed.
Example C72_hypotheses : exists kl kc ki, exModel = Ok (kl, kc, ki) /\ savableConfig exU kl kc /\ savableInteractions exU ki.
Proof.
  destruct exModel as [[[kl kc] ki]|] eqn:E; [|vm_compute in E; discriminate]. exists kl, kc, ki. split; [reflexivity|]. pose proof E as EE. unfold exModel in E.
  destruct (KMCUnitCell exU (cube exU) (VList [vec 0; vec 250000])) as [u|] eqn:EU; cbn [MPy.obind] in E; [|discriminate]. destruct (KMCLattice exU (Some u) _ _) as [kl'|] eqn:EL; cbn [MPy.obind] in E; [|discriminate].
  destruct (KMCConfiguration exU (kl_lat kl') _ _ _) as [kc'|] eqn:EC; cbn [MPy.obind] in E; [|discriminate]. destruct (KMCProcess exU _ _ _ _ _ _) as [p|] eqn:EP; cbn [MPy.obind] in E; [|discriminate]. injection E as -> -> EI.
  assert (S0 : shortDecimal 7 exU 0) by (apply (short_int exU 0); reflexivity). assert (S1 : shortDecimal 7 exU 1000000) by (apply (short_int exU 1); reflexivity). assert (S2 : shortDecimal 7 exU 250000) by (exists 25, (-2); split; reflexivity). assert (S3 : shortDecimal 7 exU (-250000)) by (exists (-25), (-2); split; reflexivity). assert (S4 : shortDecimal 7 exU 1234560) by (exists 123456, (-5); split; reflexivity).
  split.
  - split; [do 5 eexists; split; [exact EU|exact EL]|]. vm_compute in EU. injection EU as <-. split.
    + vm_compute in EL. injection EL as <-. split; [unfold shortVector; cbn; auto 20|]. intros r Hr. cbn in Hr. destruct Hr as [<-|[<-|[]]]; unfold shortVector; cbn; auto.
    + exists ["A"; "V"; "A"; "V"; "A"; "A"; "A"; "V"; "A"; "V"; "A"; "A"]. split.
      * split; [vm_compute in EL; injection EL as <-; vm_compute in EC; injection EC as <-; reflexivity|]. do 3 eexists. split; [exact EC|]. right. eexists. split; [reflexivity|]. repeat constructor; cbn; intuition discriminate.
      * intros t Ht. apply quotable_dec. vm_compute in EL. injection EL as <-. vm_compute in EC. injection EC as <-. cbn in Ht. intuition (subst; reflexivity).
  - exists [p; p]. split; [rewrite <- EI; reflexivity|]. split; [discriminate|]. assert (SP : savable exU p).
    + split; [do 6 eexists; exact EP|]. vm_compute in EP. injection EP as <-. split; [repeat constructor; cbn; intuition discriminate|]. split.
      * split; [intros c Hc; cbn in Hc; destruct Hc as [<-|[<-|[]]]; unfold shortVector; cbn; auto|]. split; [intros iv Hi; cbn in Hi; destruct Hi as [<-|[<-|[]]]; unfold shortVector; cbn; auto|exact S4].
      * intros t Ht. apply quotable_dec. cbn in Ht. intuition (subst; reflexivity).
    + intros q [<-|[<-|[]]]; exact SP.
Qed.
Print Assumptions C72_configuration.
Print Assumptions C72_interactions.
Print Assumptions C72_model.
Print Assumptions C72_numbers.
Print Assumptions C72_thirds_refuted.
Print Assumptions C72_near_one_refuted.
Print Assumptions C72_quotes_refuted.
Print Assumptions C72_repeated_refuted.
Print Assumptions C72_bucket_configuration_raises.
Print Assumptions C72_bucket_process_raises.
