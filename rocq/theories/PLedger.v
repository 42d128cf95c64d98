(** Proofs about the numbers of particles in a history of events. *)
From Coq Require Import Reals Lra.
From Verif Require Import PBase SModel SNoUB PGeo PIdeal PChain PNear PPick PPyChain PPyChain2 PPyChain3 SReverse PReverse SLedger.
From Coq Require Import ZifyBool.
Open Scope string_scope.
Open Scope list_scope.
Open Scope Z_scope.

Lemma zsum_map_ext {A} (f g : A -> Z) l : (forall x, In x l -> f x = g x) -> zsum (map f l) = zsum (map g l).
Proof. intros H. f_equal. apply map_ext_in. exact H. Qed.
(** a sum in which one term is not zero *)
Lemma zsum_single {A} (f : A -> bool) (v : Z) l x : NoDup l -> In x l -> (forall y, In y l -> f y = true <-> y = x) -> zsum (map (fun y => if f y then v else 0) l) = v.
Proof.
  induction 1 as [|a l Hn N IH]; intros Hin U; [destruct Hin|]. cbn [map]. rewrite PBase.zsum_cons. destruct (f a) eqn:Fa.
  - apply U in Fa; [|left; reflexivity]. subst a. rewrite (zsum_map_ext _ (fun _ => 0)); [rewrite zsum_map_const; lia|]. intros y Hy. destruct (f y) eqn:Fy; [|reflexivity]. apply U in Fy; [|right; exact Hy]. congruence.
  - destruct Hin as [->|Hin]; [assert (f x = true) by (apply U; [left|]; reflexivity); congruence|]. rewrite IH; [lia|exact Hin|]. intros y Hy. apply U. right. exact Hy.
Qed.
(** every marked row is found at one place and no place has two rows: the sum over the places of what is found there is the sum over the marked rows *)
Lemma zsum_find {A B} (p : B -> bool) (f : A -> B -> bool) (g : B -> Z) (l : list A) (rows : list B) : NoDup l -> NoDup rows ->
  (forall y r, f y r = true -> p r = true) ->
  (forall r, In r rows -> p r = true -> exists x, In x l /\ forall y, In y l -> f y r = true <-> y = x) ->
  (forall y r r', In r rows -> In r' rows -> f y r = true -> f y r' = true -> r = r') ->
  zsum (map (fun y => match find (f y) rows with Some r => g r | None => 0 end) l) = zsum (map (fun r => if p r then g r else 0) rows).
Proof.
  intros NL NR MP. induction NR as [|r rows Hn N IH]; intros EX UN; [cbn [find map]; rewrite zsum_map_const; cbn; lia|]. cbn [map]. rewrite PBase.zsum_cons, <- IH; clear IH.
  2:{ intros r' Hr'. apply EX. right. exact Hr'. } 2:{ intros y a b Ha Hb. apply UN; right; assumption. }
  rewrite (zsum_map_ext _ (fun y => (if f y r then g r else 0) + match find (f y) rows with Some r' => g r' | None => 0 end)).
  - rewrite zsum_map_add. f_equal. destruct (p r) eqn:Pr.
    + destruct (EX r (or_introl eq_refl) Pr) as (x & Hx & U). apply (zsum_single (fun y => f y r) (g r) l x NL Hx U).
    + rewrite (zsum_map_ext _ (fun _ => 0)); [rewrite zsum_map_const; lia|]. intros y _. destruct (f y r) eqn:F; [apply MP in F; congruence|reflexivity].
  - intros y _. cbn [find]. destruct (f y r) eqn:F; [|lia]. destruct (find (f y) rows) as [r'|] eqn:E; [|lia]. apply find_some in E. destruct E as [Hr' F']. assert (r = r') by (apply (UN y); auto; [left; reflexivity|right; exact Hr']). subst r'. contradiction.
Qed.

Section Ledger.
Context (L : lattice) (basis : list coord) (names : list string) (ND : NoDup names) (WF : wf_lattice L) (WB : wf_basis L basis).
Notation canHappen := (canHappen L basis names).
Notation happened := (happened L basis names).
Notation totalOf := (totalOf L names).

(** one event adds the net numbers of its process *)
Lemma step_total pr x s t : wellShaped L names s -> apartC L basis (cp_spec pr) -> In x (sites L) -> In t names -> canHappen pr x s = true -> totalOf (happened pr x s) t = totalOf s t + netOf pr t.
Proof using ND WF WB.
  intros [H1 H2] AP Hx Ht HC. set (f := fun y r => negb (anyRow r) && there L basis x (br_c r) y). unfold SLedger.totalOf, netOf.
  rewrite (zsum_map_ext _ (fun y => numberAt names s y t + match find (f y) (cp_rows pr) with Some r => change (br_upd r) t | None => 0 end)).
  - rewrite zsum_map_add. f_equal. rewrite (zsum_find (fun r => negb (anyRow r)) f (fun r => change (br_upd r) t)).
    + apply zsum_map_ext. intros r _. destruct (anyRow r); reflexivity.
    + apply NoDup_zrange.
    + destruct AP as [N _]. rewrite <- numberRows_c in N. exact (NoDup_map_inv _ _ N).
    + intros y r F. apply andb_true_iff in F. apply F.
    + intros r Hr Pr. unfold SChain.canHappen in HC. apply andb_true_iff in HC. destruct HC as [_ HC]. rewrite forallb_forall in HC. specialize (HC r Hr). apply negb_true_iff in Pr. rewrite Pr in HC. cbn [orb] in HC.
      apply existsb_exists in HC. destruct HC as (y & Hy & C). apply andb_true_iff in C. destruct C as [T _]. exists y. split; [exact Hy|]. intros z Hz. unfold f. rewrite Pr. cbn [negb andb]. split; [|intros ->; exact T].
      intros Tz. apply In_sites in Hx, Hy, Hz. apply (there_spec L WF basis WB) in T, Tz; auto. eapply (siteAt_unique L WF basis WB); eauto.
    + intros y r r' Hr Hr' F F'. apply andb_true_iff in F, F'. eapply (row_unique L basis pr x y); eauto; [apply F|apply F'].
  - intros y Hy. apply In_sites in Hy. destruct (zget_lt s y) as [ns Ey]; [lia|]. pose proof (happened_get L basis names pr x s y H1) as G. rewrite Ey in G. cbn [option_map] in G. fold (f y) in G.
    destruct (find (f y) (cp_rows pr)) as [r|] eqn:E.
    + rewrite (number_map names ns (change (br_upd r)) _ y t ND Ht G (H2 ns (zget_In _ _ _ Ey))). unfold numberAt. rewrite Ey. reflexivity.
    + unfold numberAt. rewrite G, Ey. lia.
Qed.

Lemma step_weighted w pr x s : wellShaped L names s -> apartC L basis (cp_spec pr) -> In x (sites L) -> canHappen pr x s = true -> weighted L names w (happened pr x s) = weighted L names w s + weightedNet names w pr.
Proof using ND WF WB.
  intros SH AP Hx HC. unfold weighted, weightedNet. rewrite <- zsum_map_add. apply zsum_map_ext. intros t Ht. rewrite (step_total pr x s t SH AP Hx Ht HC). lia.
Qed.
Context (prs : list cproc) (APS : forall pr, In pr prs -> apartC L basis (cp_spec pr)).
Notation chainHistory := (chainHistory L basis names prs).
(** what the events add *)
Definition gain (t : string) (e : Z * Z * R) : Z := match zget prs (fst (fst e)) with Some pr => netOf pr t | None => 0 end.
Lemma history_shaped s t es s' T : chainHistory s t es s' T -> wellShaped L names s -> wellShaped L names s'.
Proof using.
  induction 1 as [s0 u0|s t e v s1 es s2 t2 ST HV HI IH]; intros SH; [exact SH|]. apply IH. inversion ST; subst. apply shaped_happened. exact SH.
Qed.
Lemma history_gain s t0 es s' T : chainHistory s t0 es s' T -> wellShaped L names s -> forall t, In t names -> totalOf s' t = totalOf s t + zsum (map (gain t) es).
Proof using ND WF WB APS.
  induction 1 as [s0 u0|s t0 e v s1 es s2 t2 ST HV HI IH]; intros SH t Ht; [cbn; lia|]. inversion ST as [i pr x Ei Hx HP E1 E2]. subst e s1. cbn [map]. rewrite PBase.zsum_cons. rewrite IH; [|apply shaped_happened; exact SH|exact Ht].
  assert (HC : canHappen pr x s = true) by (unfold eventRate in HP; destruct (SChain.canHappen L basis names pr x s); [reflexivity|lia]). rewrite (step_total pr x s t SH (APS pr (zget_In _ _ _ Ei)) Hx Ht HC). unfold gain at 2. cbn [fst]. rewrite Ei. lia.
Qed.
Lemma history_numbers s t0 es s' T : chainHistory s t0 es s' T -> Forall (fun e => 0 <= fst (fst e) < zlen prs) es.
Proof using. induction 1 as [s0 u0|s t0 e v s1 es s2 t2 ST HV HI IH]; constructor; [|exact IH]. inversion ST as [i pr x Ei Hx HP E1 E2]. subst. cbn [fst]. eapply zget_range. exact Ei. Qed.
(** summed over the processes *)
Lemma gain_times t (es : list (Z * Z * R)) : Forall (fun e => 0 <= fst (fst e) < zlen prs) es -> zsum (map (gain t) es) = zsum (map (fun ip => timesOf es (fst ip) * netOf (snd ip) t) (numbered prs)).
Proof using.
  intros F. assert (R : forall es' : list (Z * Z * R), zsum (map (fun ip => timesOf es' (fst ip) * netOf (snd ip) t) (numbered prs)) =
    zsum (map (fun i => timesOf es' i * match zget prs i with Some pr => netOf pr t | None => 0 end) (zrange 0 (zlen prs - 1)))).
  { intros es'. f_equal. unfold numbered. apply PBase.zget_ext. intros i. rewrite !zget_map. destruct (zget prs i) as [pr|] eqn:E.
    - pose proof (zget_range _ _ _ E). rewrite PPyProcess.zget_combine, E, PPyProcess.zget_zrange0. destruct ((0 <=? i) && (i <? zlen prs)) eqn:B; [|lia]. cbn [option_map fst snd]. rewrite E. reflexivity.
    - rewrite PPyProcess.zget_combine, E, PPyProcess.zget_zrange0. destruct ((0 <=? i) && (i <? zlen prs)) eqn:B; [|reflexivity]. apply zget_None in E. lia. }
  rewrite R. clear R. induction F as [|e es He F IH].
  - cbn [map]. rewrite (zsum_map_ext _ (fun _ => 0)); [rewrite zsum_map_const; cbn; lia|]. intros i _. reflexivity.
  - cbn [map]. rewrite PBase.zsum_cons, IH. clear IH. set (n := fun i => match zget prs i with Some pr => netOf pr t | None => 0 end). change (gain t e) with (n (fst (fst e))).
    rewrite (zsum_map_ext (fun i => timesOf (e :: es) i * n i) (fun i => (if fst (fst e) =? i then n (fst (fst e)) else 0) + timesOf es i * n i)).
    + rewrite zsum_map_add. f_equal. symmetry. apply (zsum_single (fun i => fst (fst e) =? i) _ _ (fst (fst e))); [apply NoDup_zrange|apply In_zrange; lia|]. intros y _. lia.
    + intros i _. unfold timesOf. cbn [filter]. destruct (Z.eqb_spec (fst (fst e)) i) as [->|]; [rewrite zlen_cons; lia|lia].
Qed.
Lemma zsum_swap {A B} (f : A -> B -> Z) l m : zsum (map (fun x => zsum (map (f x) m)) l) = zsum (map (fun y => zsum (map (fun x => f x y) l)) m).
Proof using. induction l as [|a l IH]; cbn [map]; [rewrite (zsum_map_const m (zsum [])); change (zsum []) with 0; lia|]. rewrite PBase.zsum_cons, IH, <- zsum_map_add. apply zsum_map_ext. intros. rewrite PBase.zsum_cons. reflexivity. Qed.
Definition wgain (w : string -> Z) (e : Z * Z * R) : Z := match zget prs (fst (fst e)) with Some pr => weightedNet names w pr | None => 0 end.
Lemma history_weighted w s t0 es s' T : chainHistory s t0 es s' T -> wellShaped L names s -> weighted L names w s' = weighted L names w s + zsum (map (wgain w) es).
Proof using ND WF WB APS.
  intros HI SH. unfold weighted. rewrite (zsum_map_ext _ (fun t => w t * totalOf s t + zsum (map (fun e => w t * gain t e) es))).
  - rewrite zsum_map_add. f_equal. rewrite zsum_swap. apply zsum_map_ext. intros e _. unfold wgain, gain. destruct (zget prs (fst (fst e))); [reflexivity|]. rewrite (zsum_map_ext _ (fun _ => 0)); [rewrite zsum_map_const; lia|]. intros; lia.
  - intros t Ht. rewrite (history_gain _ _ _ _ _ HI SH t Ht), zsum_map_mul. lia.
Qed.
End Ledger.
