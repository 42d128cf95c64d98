(** C55: several models in one program.

    A program makes KMCInteractions objects and builds KMCLatticeModel objects with them, in any order, and lets the models take steps, in
    any order (a list of [Build] and [Step]).  [onItsOwn makes ops m] is model m as if its interactions had been constructed for it alone
    and only its own steps were taken.  The theorems compare the models of the program with that. *)
From Verif Require Import PBase SModel SShared SPlain SBucket PBuild PShared PShared2 PShared3 PShared4 PShared5 XSystems XRows.
Open Scope string_scope.
Open Scope list_scope.
Open Scope Z_scope.

(** what is visible of a model does not depend on the buffers *)
Lemma like_shown md md' : likeMd md md' -> shownModel md = shownModel md'.
Proof.
  intros [A B C [S _]]. unfold shownModel, withProcs. rewrite A, B, C. f_equal. exact S.
Qed.

(** With one KMCInteractions object per model, every model behaves as on its own, whatever the order of the steps: it is the same model. *)
Theorem C55_separate makes ops w : NoDup (map fst (builds ops)) -> runWorld (newObjects makes) ops = Some w ->
  forall m, 0 <= m < zlen (builds ops) -> exists md, onItsOwn makes ops m = Some md /\ present w m = Some md /\ configOf w m = Some (md_cf md).
Proof.
  intros ND H m Hm. pose proof (world_separate _ _ _ ND H) as W. pose proof (world_base _ _ _ H) as B. rewrite <- (base_len _ _ _ B) in Hm. destruct (zget_lt _ _ Hm) as [[o md] E]. destruct (W _ _ _ E) as (A & ob & it & E1 & E2 & E3).
  exists md. split; [exact A|]. unfold present, configOf. rewrite E. cbn [obind option_map fst snd]. rewrite E1. cbn [obind]. rewrite E2. cbn [obind]. rewrite E3, withProcs_same. auto.
Qed.

(** A KMCInteractions object may also be used again: if the models that share it live one after the other (none takes a step after the next
    was built) and are on the same lattice with the same possible types in the same order, then every model passes through the configurations it
    has on its own, and the one that was built last also shows the same matching, rates and tables. *)
Theorem C55_sequential makes ops w : (forall i o s, zget (builds ops) i = Some (o, s) -> 0 < lt_unit (su_lat s)) -> sameSystems ops -> oneAtATime ops ->
  runWorld (newObjects makes) ops = Some w ->
  forall m, 0 <= m < zlen (builds ops) -> exists md, onItsOwn makes ops m = Some md /\ configOf w m = Some (md_cf md) /\
    (latest ops m -> exists md', present w m = Some md' /\ shownModel md' = shownModel md).
Proof.
  intros US SS OT H m Hm. pose proof (world_sequential _ _ _ US SS OT H) as W. pose proof (world_base _ _ _ H) as B. rewrite <- (base_len _ _ _ B) in Hm. destruct (zget_lt _ _ Hm) as [[o md] E]. destruct (ws_model _ _ _ W _ _ _ E) as (own & A & EC & HL).
  exists own. split; [exact A|]. split; [unfold configOf; rewrite E; cbn [option_map snd]; congruence|]. intros LT. destruct (HL LT) as (ob & it & E1 & E2 & LK). unfold present. rewrite E. cbn [obind fst snd]. rewrite E1. cbn [obind]. rewrite E2. cbn [obind]. eexists. split; [reflexivity|]. apply like_shown. exact LK.
Qed.
(** ... and the next construction or step succeeds exactly when it does for the model on its own *)
Theorem C55_sequential_next makes ops op w : (forall i o s, zget (builds (ops ++ [op])) i = Some (o, s) -> 0 < lt_unit (su_lat s)) -> sameSystems (ops ++ [op]) -> oneAtATime (ops ++ [op]) ->
  runWorld (newObjects makes) ops = Some w ->
  (wDo w op = None <-> onItsOwn makes (ops ++ [op]) (match op with Build _ _ => zlen (builds ops) | Step m _ _ => m end) = None).
Proof.
  intros US SS OT H. assert (W : wSeq makes ops w).
  { apply world_sequential; [|eapply sameSystems_app; eauto|eapply oneAtATime_app; eauto|exact H]. intros i o s E. apply (US i o s). rewrite builds_app, zget_app_l; [exact E|apply zget_range in E; lia]. }
  pose proof (seq_do _ _ _ op (world_base _ _ _ H) W US SS OT) as X. fold (target ops op). destruct (wDo w op), (onItsOwn makes (ops ++ [op]) (target ops op)); try contradiction; split; intros; auto; discriminate.
Qed.

(** ** a program *)
Definition xsMake (xs : list xspec) : tmap -> Z -> option interactions := fun pt _ => ps <- buildAll xS pt xs ;; Some (mkInteractions ps true false norc).
Definition xsCf (pt : tmap) (types : list string) : config := match mkConfiguration x1sites (one types) pt with Some cf => cf | None => mkCF 0 [] [] [] [] [] [] [] [] [] [] [] [] 0 0 end.
Definition xsTypes2 : list string := ["B"; "A"; "A";  "A"; "B"; "B";  "A"; "A"; "B";  "B"; "B"; "B"].
Definition xsA : setup := mkSetup 2 xhash x1L (xsCf x1pt xaTypes).
Definition xsB : setup := mkSetup 1 xhash x1L (xsCf x1pt xsTypes2).
Definition ownTypes (xs : list xspec) (ops : list wop) (m : Z) : option (list bucket) := option_map (fun md => cf_types (md_cf md)) (onItsOwn [xsMake xs] ops m).
Definition worldTypes (xs : list xspec) (ops : list wop) (m : Z) : option (list bucket) := w <- runWorld (newObjects [xsMake xs]) ops ;; option_map cf_types (configOf w m).
Lemma xs_same : sameSystem xsA xsB.
Proof.
  split; [reflexivity|]. exists x1sites, (one xaTypes), (one xsTypes2), x1pt. split; [vm_compute; reflexivity|]. split; [vm_compute; reflexivity|reflexivity].
Qed.
Lemma xs_refl s : sameSystem xsA s -> sameSystem xsA xsA /\ sameSystem s s /\ sameSystem s xsA.
Proof.
  intros (L & c & e & e' & pt & E & E' & Z0). split; [split; [reflexivity|]; exists c, e, e, pt; auto|]. split; [split; [reflexivity|]; exists c, e', e', pt; auto|]. split; [symmetry; exact L|]. exists c, e', e, pt. auto.
Qed.
Lemma two_systems ops : builds ops = [(0, xsA); (0, xsB)] -> sameSystems ops /\ forall i o s, zget (builds ops) i = Some (o, s) -> 0 < lt_unit (su_lat s).
Proof.
  intros E. destruct (xs_refl _ xs_same) as (AA & BB & BA).
  assert (G : forall i o s, zget [(0, xsA); (0, xsB)] i = Some (o, s) -> s = xsA \/ s = xsB) by (intros i o s H; apply zget_In in H; destruct H as [H|[H|[]]]; injection H as _ <-; auto).
  split.
  - intros i j o s s' Ei Ej. rewrite E in Ei, Ej. apply G in Ei, Ej. destruct Ei as [-> | ->], Ej as [-> | ->]; auto using xs_same.
  - intros i o s Ei. rewrite E in Ei. apply G in Ei. destruct Ei as [-> | ->]; reflexivity.
Qed.
(** the second model after the first *)
Definition xsSeq : list wop := [Build 0 xsA; Step 0 (dev 1 3) (dev 1 7); Step 0 (dev 3 4) (dev 5 9); Build 0 xsB; Step 1 (dev 9 10) (dev 2 3); Step 1 (dev 1 100) (dev 1 2)].
Lemma oneAtATime_check ops : (forall n, 0 <= n < zlen ops -> forall m u1 u2, zget ops n = Some (Step m u1 u2) -> latest (firstn (Z.to_nat n) ops) m) -> oneAtATime ops.
Proof.
  intros H pre m u1 u2 post E. specialize (H (zlen pre)). subst ops. assert (X : firstn (Z.to_nat (zlen pre)) (pre ++ Step m u1 u2 :: post) = pre) by (unfold zlen; rewrite Nat2Z.id, firstn_app, firstn_all, Nat.sub_diag, firstn_O, app_nil_r; reflexivity). rewrite X in H. apply (H) with u1 u2.
  - rewrite zlen_app, zlen_cons. pose proof (zlen_nonneg pre). pose proof (zlen_nonneg post). lia.
  - rewrite zget_app_r, Z.sub_diag by lia. reflexivity.
Qed.
Lemma xsSeq_ok : oneAtATime xsSeq.
Proof.
  apply oneAtATime_check. intros n Hn m u1 u2 E. assert (C : n = 0 \/ n = 1 \/ n = 2 \/ n = 3 \/ n = 4 \/ n = 5) by (change (zlen xsSeq) with 6 in Hn; lia).
  assert (G0 : forall l, builds l = [(0, xsA)] -> latest l 0) by (intros l El k o s s' Hk _ E2; rewrite El in E2; apply zget_range in E2; change (zlen [(0, xsA)]) with 1 in E2; lia).
  assert (G1 : forall l, builds l = [(0, xsA); (0, xsB)] -> latest l 1) by (intros l El k o s s' Hk _ E2; rewrite El in E2; apply zget_range in E2; change (zlen [(0, xsA); (0, xsB)]) with 2 in E2; lia).
  destruct C as [-> |[-> |[-> |[-> |[-> | ->]]]]]; cbn in E; try discriminate; injection E as <- _ _; [apply G0|apply G0|apply G1|apply G1]; reflexivity.
Qed.
Definition sameTypes (a b : list bucket) : bool := forallb (fun ab => Z.eqb (fst ab) (snd ab)) (combine (concat a) (concat b)).
Lemma sameTypes_refl a : sameTypes a a = true.
Proof. unfold sameTypes. generalize (concat a). intros l. induction l as [|x l IH]; [reflexivity|cbn; rewrite Z.eqb_refl; exact IH]. Qed.
Definition movesOn (makes : list (tmap -> Z -> option interactions)) (ops : list wop) (m : Z) (start : list bucket) : bool :=
  somewhere (runWorld (newObjects makes) ops) (fun _ => somewhere (onItsOwn makes ops m) (fun md => negb (sameTypes (cf_types (md_cf md)) start))).
Lemma movesOn_sound makes ops m start : movesOn makes ops m start = true -> exists w md, runWorld (newObjects makes) ops = Some w /\ onItsOwn makes ops m = Some md /\ cf_types (md_cf md) <> start.
Proof.
  unfold movesOn. intros H. apply somewhere_Some in H. destruct H as (w & Ew & H). apply somewhere_Some in H. destruct H as (md & Em & H). exists w, md. split; [exact Ew|]. split; [exact Em|]. intros E. rewrite E, sameTypes_refl in H. discriminate.
Qed.
Definition xsCheck : bool := movesOn [xsMake xaSpecs] xsSeq 1 (cf_types (xsCf x1pt xsTypes2)).
Lemma xs_ok : xsCheck = true. Proof. vm_compute. reflexivity. Qed.
Strategy expand [xsCheck].
Example C55_sequential_example : exists w, runWorld (newObjects [xsMake xaSpecs]) xsSeq = Some w /\ sameSystems xsSeq /\ oneAtATime xsSeq /\ latest xsSeq 1 /\
  exists md, onItsOwn [xsMake xaSpecs] xsSeq 1 = Some md /\ cf_types (md_cf md) <> cf_types (xsCf x1pt xsTypes2).
Proof.
  pose proof xs_ok as H. unfold xsCheck in H. apply movesOn_sound in H. destruct H as (w & md & Ew & Em & H). exists w. split; [exact Ew|]. split; [apply two_systems; reflexivity|]. split; [exact xsSeq_ok|].
  split; [|exists md; auto]. assert (B : builds xsSeq = [(0, xsA); (0, xsB)]) by reflexivity. intros k o s s' Hk _ E2. rewrite B in E2. apply zget_range in E2. rewrite !zlen_cons in E2. change (zlen (@nil (Z * setup))) with 0 in E2. lia.
Qed.
(** separate objects and an interleaving *)
Definition xsInter (o : Z) : list wop := [Build 0 xsA; Build o xsB; Step 0 (dev 1 3) (dev 1 7); Step 1 (dev 9 10) (dev 2 3); Step 0 (dev 3 4) (dev 5 9); Step 1 (dev 1 100) (dev 1 2)].
Example C55_separate_example : exists w, runWorld (newObjects [xsMake xaSpecs; xsMake xaSpecs]) (xsInter 1) = Some w /\ NoDup (map fst (builds (xsInter 1))).
Proof.
  assert (H : somewhere (runWorld (newObjects [xsMake xaSpecs; xsMake xaSpecs]) (xsInter 1)) (fun _ => true) = true) by (vm_compute; reflexivity). apply somewhere_Some in H. destruct H as (w & Ew & _). exists w. split; [exact Ew|]. cbn. repeat constructor; cbn; intuition discriminate.
Qed.

(** ** Models that use the same object at the same time
    do not behave as on their own, although they start from the same configuration: after a step of the first, a step of the second leads to
    another configuration than on its own. *)
Definition flips : list xspec := [plain [mkRow (xcell 0 0 0) "A" "B" None] 3; plain [mkRow (xcell 0 0 0) "B" "A" None] 2].
Definition interOps (o : Z) : list wop := [Build 0 xsA; Build o xsA; Step 0 (dev 1 3) (dev 1 7); Step 1 (dev 5 10) (dev 5 10)].
Definition apart (makes : list (tmap -> Z -> option interactions)) (ops : list wop) (m : Z) : bool :=
  somewhere (runWorld (newObjects makes) ops) (fun w => somewhere (configOf w m) (fun cf => somewhere (onItsOwn makes ops m) (fun md => negb (sameTypes (cf_types cf) (cf_types (md_cf md)))))).
Lemma apart_sound makes ops m : apart makes ops m = true -> exists w cf md, runWorld (newObjects makes) ops = Some w /\ configOf w m = Some cf /\ onItsOwn makes ops m = Some md /\ cf_types cf <> cf_types (md_cf md).
Proof.
  unfold apart. intros H. apply somewhere_Some in H. destruct H as (w & Ew & H). apply somewhere_Some in H. destruct H as (cf & Ec & H). apply somewhere_Some in H. destruct H as (md & Em & H). exists w, cf, md. split; [exact Ew|]. split; [exact Ec|]. split; [exact Em|].
  intros E. rewrite E, sameTypes_refl in H. discriminate.
Qed.
Definition apartCheck : bool := apart [xsMake flips] (interOps 0) 1.
Lemma apart_ok : apartCheck = true. Proof. vm_compute. reflexivity. Qed.
Strategy expand [apartCheck].
Theorem C55_refuted : exists makes ops m w cf md, sameSystems ops /\ runWorld (newObjects makes) ops = Some w /\ configOf w m = Some cf /\ onItsOwn makes ops m = Some md /\ cf_types cf <> cf_types (md_cf md).
Proof.
  pose proof apart_ok as H. unfold apartCheck in H. apply apart_sound in H. destruct H as (w & cf & md & Ew & Ec & Em & H). exists [xsMake flips], (interOps 0), 1, w, cf, md. split; [|auto].
  assert (B : builds (interOps 0) = [(0, xsA); (0, xsA)]) by reflexivity. destruct (xs_refl _ xs_same) as (AA & _ & _). intros i j o s s' Ei Ej. rewrite B in Ei, Ej. apply zget_In in Ei, Ej.
  destruct Ei as [Ei|[Ei|[]]], Ej as [Ej|[Ej|[]]]; injection Ei as _ <-; injection Ej as _ <-; exact AA.
Qed.
(** Or the step is not defined at all (the backend looks for a site in a list that does not have it, or removes a particle that is not there),
    while it is on its own. *)
Definition undefOps : list wop := [Build 0 xsA; Build 0 xsB; Step 0 (dev 1 3) (dev 1 7)].
Definition undefCheck : bool := somewhere (onItsOwn [xsMake xaSpecs] undefOps 0) (fun _ => match runWorld (newObjects [xsMake xaSpecs]) undefOps with None => true | Some _ => false end) && somewhere (runWorld (newObjects [xsMake xaSpecs]) [Build 0 xsA; Build 0 xsB]) (fun _ => true).
Lemma undef_ok : undefCheck = true. Proof. vm_compute. reflexivity. Qed.
Strategy expand [undefCheck].
Lemma check_undef makes a b m : somewhere (onItsOwn makes b m) (fun _ => match runWorld (newObjects makes) b with None => true | Some _ => false end) && somewhere (runWorld (newObjects makes) a) (fun _ => true) = true ->
  runWorld (newObjects makes) a <> None /\ runWorld (newObjects makes) b = None /\ onItsOwn makes b m <> None.
Proof.
  intros H. apply andb_true_iff in H. destruct H as [H1 H2]. apply somewhere_Some in H1. destruct H1 as (md & E1 & H1). apply somewhere_Some in H2. destruct H2 as (w & E2 & _). rewrite E1, E2. split; [discriminate|]. split; [|discriminate]. destruct (runWorld (newObjects makes) b); [discriminate|reflexivity].
Qed.
Theorem C55_undefined_refuted : exists makes s s' u1 u2, sameSystem s s' /\ runWorld (newObjects makes) [Build 0 s; Build 0 s'] <> None /\
  runWorld (newObjects makes) [Build 0 s; Build 0 s'; Step 0 u1 u2] = None /\ onItsOwn makes [Build 0 s; Build 0 s'; Step 0 u1 u2] 0 <> None.
Proof.
  pose proof undef_ok as H. unfold undefCheck in H. apply check_undef in H. exists [xsMake xaSpecs], xsA, xsB, (dev 1 3), (dev 1 7). split; [exact xs_same|]. exact H.
Qed.
(** One after the other is not enough if the second configuration lists its possible types in another order: the object keeps the type numbers of the first. *)
Definition xsC : setup := mkSetup 1 xhash x1L (xsCf [("*", 0); ("B", 1); ("A", 2)] xsTypes2).
Definition typeOps : list wop := [Build 0 xsA; Build 0 xsC; Step 1 (dev 1 3) (dev 1 7)].
Definition typesCheck : bool := apart [xsMake xaSpecs] typeOps 1.
Lemma types_ok : typesCheck = true. Proof. vm_compute. reflexivity. Qed.
Strategy expand [typesCheck].
Lemma typeOps_ok : oneAtATime typeOps.
Proof.
  apply oneAtATime_check. intros n Hn m u1 u2 E. assert (C : n = 0 \/ n = 1 \/ n = 2) by (change (zlen typeOps) with 3 in Hn; lia).
  assert (G1 : forall l, builds l = [(0, xsA); (0, xsC)] -> latest l 1) by (intros l El k o s s' Hk _ E2; rewrite El in E2; apply zget_range in E2; change (zlen [(0, xsA); (0, xsC)]) with 2 in E2; lia).
  destruct C as [-> |[-> | ->]]; cbn in E; try discriminate. injection E as <- _ _. apply G1. reflexivity.
Qed.
Theorem C55_types_refuted : exists makes ops m w cf md, oneAtATime ops /\ runWorld (newObjects makes) ops = Some w /\ configOf w m = Some cf /\ onItsOwn makes ops m = Some md /\ cf_types cf <> cf_types (md_cf md).
Proof.
  pose proof types_ok as H. unfold typesCheck in H. apply apart_sound in H. destruct H as (w & cf & md & Ew & Ec & Em & H). exists [xsMake xaSpecs], typeOps, 1, w, cf, md. split; [exact typeOps_ok|auto].
Qed.

Print Assumptions C55_separate.
Print Assumptions C55_sequential.
Print Assumptions C55_sequential_next.
Print Assumptions C55_refuted.
Print Assumptions C55_undefined_refuted.
Print Assumptions C55_types_refuted.
