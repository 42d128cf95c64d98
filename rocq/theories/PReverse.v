(** Proofs about processes that undo one another. *)
From Coq Require Import Reals Lra.
From Verif Require Import PBase SModel SNoUB PIdeal PChain PNear PPick PPyChain PPyChain2 PPyChain3 SReverse.
From Coq Require Import ZifyBool.
Open Scope string_scope.
Open Scope list_scope.
Open Scope Z_scope.

Lemma undoesRow_sym names r r' : undoesRow names r r' -> undoesRow names r' r.
Proof. intros (A & B & C). split; [congruence|]. split; [congruence|]. intros Ha t Ht. destruct (C ltac:(congruence) t Ht). split; lia. Qed.
Lemma undoes_sym names pr pr' : undoes names pr pr' -> undoes names pr' pr.
Proof. intros [A F]. split; [congruence|]. clear A. induction F; constructor; [apply undoesRow_sym; assumption|assumption]. Qed.

Section Undo.
Context (L : lattice) (basis : list coord) (names : list string) (ND : NoDup names).
Notation canHappen := (canHappen L basis names).
Notation happened := (happened L basis names).
Notation eventRate := (eventRate L basis names).

Lemma shaped_happened pr x s : wellShaped L names s -> wellShaped L names (happened pr x s).
Proof using.
  intros [H1 H2]. split.
  - unfold SChain.happened. assert (HS : zlen (sites L) = nsites L) by (unfold sites; rewrite zlen_zrange; pose proof (zlen_nonneg s); lia). rewrite zlen_map, PPyProcess.zlen_combine; lia.
  - intros ns Hn. apply In_zget in Hn. destruct Hn as [y E]. rewrite (happened_get L basis names pr x s y H1) in E. destruct (zget s y) as [m|] eqn:Ey; [|discriminate]. injection E as <-. specialize (H2 m (zget_In _ _ _ Ey)). destruct (find _ _); [|exact H2].
    rewrite zlen_map, PPyProcess.zlen_combine; lia.
Qed.
Lemma row_unique pr x y r r' : apartC L basis (cp_spec pr) -> In r (cp_rows pr) -> In r' (cp_rows pr) -> there L basis x (br_c r) y = true -> there L basis x (br_c r') y = true -> r = r'.
Proof using.
  intros [N AP] Ha Hb Fa Fb. unfold cp_rows in *. rewrite <- numberRows_c in N, AP.
  assert (EC : br_c r = br_c r') by (apply (AP x y); [apply in_map; exact Ha|apply in_map; exact Hb|exact Fa|exact Fb]). apply In_zget in Ha, Hb. destruct Ha as [n Hn], Hb as [n' Hn'].
  assert (n = n') by (eapply (zget_NoDup_inj (map br_c (numberRows (cp_spec pr)))); [exact N|rewrite zget_map, Hn; reflexivity|rewrite zget_map, Hn', EC; reflexivity]). subst n'. congruence.
Qed.
Lemma map_back (f g : string -> Z) ns : zlen ns = zlen names -> (forall t, In t names -> g t = - f t) ->
  map (fun tn => snd tn + g (fst tn)) (combine names (map (fun tn => snd tn + f (fst tn)) (combine names ns))) = ns.
Proof using.
  clear ND. revert ns. induction names as [|a l IH]; intros ns Hl H.
  - change (zlen (@nil string)) with 0 in Hl. apply zlen_0 in Hl. subst ns. reflexivity.
  - destruct ns as [|n ns]; [rewrite zlen_cons in Hl; pose proof (zlen_nonneg l); change (zlen (@nil Z)) with 0 in Hl; lia|]. rewrite !zlen_cons in Hl. cbn [combine map fst snd]. rewrite IH; [|lia|intros t Ht; apply H; right; exact Ht]. rewrite (H a (or_introl eq_refl)). f_equal. lia.
Qed.
(** an event is undone by the process that undoes it, at the same site *)
Lemma undone pr pr' x s : wellShaped L names s -> apartC L basis (cp_spec pr) -> undoes names pr pr' -> canHappen pr x s = true ->
  canHappen pr' x (happened pr x s) = true /\ happened pr' x (happened pr x s) = s.
Proof using ND.
  intros SH AP [EB F] HC. pose proof (shaped_happened pr x s SH) as SH1. destruct SH as [H1 H2]. set (f := fun y r => negb (anyRow r) && there L basis x (br_c r) y).
  assert (FF : forall y a b, undoesRow names a b -> f y a = f y b) by (intros y a b (A & B & _); unfold f; rewrite A, B; reflexivity). split.
  - unfold SChain.canHappen in *. apply andb_true_iff in HC. destruct HC as [C1 C2]. rewrite EB, C1. cbn [andb]. apply forallb_forall. intros r' Hr'. apply In_zget in Hr'. destruct Hr' as [k Hk].
    destruct (Forall2_at _ _ _ F _ _ Hk) as (r & Hr & U). pose proof U as (A & B & C). rewrite forallb_forall in C2. specialize (C2 r (zget_In _ _ _ Hr)). rewrite B. destruct (anyRow r) eqn:Ha; [reflexivity|]. cbn [orb] in *.
    apply existsb_exists in C2. destruct C2 as (y & Hy & C2). apply andb_true_iff in C2. destruct C2 as [T C2]. apply existsb_exists. exists y. split; [exact Hy|]. rewrite A, T. cbn [andb]. apply forallb_forall. intros t Ht.
    rewrite forallb_forall in C2. specialize (C2 t Ht). apply Z.leb_le in C2. apply Z.leb_le. apply In_sites in Hy. destruct (zget_lt s y) as [ns Ey]; [lia|].
    pose proof (happened_get L basis names pr x s y H1) as G. rewrite Ey in G. cbn [option_map] in G.
    destruct (find (fun r0 => negb (anyRow r0) && there L basis x (br_c r0) y) (cp_rows pr)) as [q|] eqn:Eq.
    + apply find_some in Eq. destruct Eq as [Iq Fq]. apply andb_true_iff in Fq. assert (q = r) by (eapply row_unique; [exact AP|exact Iq|eapply zget_In; exact Hr|apply Fq|exact T]). subst q.
      rewrite (number_map names ns (change (br_upd r)) _ y t ND Ht G (H2 ns (zget_In _ _ _ Ey))). unfold numberAt in C2. rewrite Ey in C2. destruct (C eq_refl t Ht) as [C3 _]. lia.
    + exfalso. pose proof (find_none _ _ Eq r (zget_In _ _ _ Hr)) as X. cbv beta in X. rewrite Ha, T in X. discriminate.
  - apply PBase.zget_ext. intros y. rewrite (happened_get L basis names pr' x _ y (proj1 SH1)), (happened_get L basis names pr x s y H1). destruct (zget s y) as [ns|] eqn:Ey; [|reflexivity]. cbn [option_map]. f_equal.
    pose proof (Forall2_find (undoesRow names) (f y) (f y) _ _ F (FF y)) as Y. unfold f in Y. destruct (find _ (cp_rows pr)) as [r|] eqn:E1, (find _ (cp_rows pr')) as [r'|] eqn:E2; try contradiction; [|reflexivity].
    apply find_some in E1. destruct E1 as [_ E1]. apply andb_true_iff in E1. destruct E1 as [E1 _]. apply negb_true_iff in E1. destruct Y as (_ & _ & C). apply map_back; [apply H2; eapply zget_In; exact Ey|]. intros t Ht. apply (C E1 t Ht).
Qed.

(** ** Sums *)
Lemma realSum_app l m : realSum (l ++ m) = (realSum l + realSum m)%R.
Proof using. unfold realSum. induction l as [|x l IH]; [cbn; ring|]. cbn [app fold_right]. rewrite IH. ring. Qed.
Lemma realSum_perm l m : Permutation l m -> realSum l = realSum m.
Proof using. unfold realSum. induction 1; cbn [fold_right]; [reflexivity|congruence|ring|congruence]. Qed.
Lemma realSum_scale k l : realSum (map (fun x => k * x)%R l) = (k * realSum l)%R.
Proof using. unfold realSum. induction l as [|x l IH]; [cbn; ring|]. cbn [map fold_right]. rewrite IH. ring. Qed.
Lemma realSum_IZR {A} (f : A -> Z) l : realSum (map (fun x => IZR (f x)) l) = IZR (zsum (map f l)).
Proof using. unfold realSum. induction l as [|x l IH]; [reflexivity|]. cbn [map fold_right]. rewrite IH, PBase.zsum_cons, plus_IZR. reflexivity. Qed.
Lemma realSum_zero {A} (l : list A) : realSum (map (fun _ => 0%R) l) = 0%R.
Proof using. unfold realSum. induction l as [|x l IH]; [reflexivity|]. cbn [map fold_right]. rewrite IH. ring. Qed.
Lemma realSum_plus {A} (f g : A -> R) l : realSum (map (fun x => f x + g x)%R l) = (realSum (map f l) + realSum (map g l))%R.
Proof using. unfold realSum. induction l as [|x l IH]; [cbn; ring|]. cbn [map fold_right]. rewrite IH. ring. Qed.
Lemma realSum_swap {A B} (f : A -> B -> R) l m : realSum (map (fun x => realSum (map (f x) m)) l) = realSum (map (fun y => realSum (map (fun x => f x y) l)) m).
Proof using.
  induction l as [|x l IH]; [cbn; rewrite realSum_zero; reflexivity|]. cbn [map]. rewrite (realSum_plus (f x) (fun y => realSum (map (fun x0 => f x0 y) l))). rewrite <- IH. reflexivity.
Qed.
(** a sum over states in which only one does not vanish *)
Lemma realSum_only (states : list pstate) s0 (v : R) : NoDup states -> In s0 states -> realSum (map (fun s' => if sameNumbers s0 s' then v else 0%R) states) = v.
Proof using.
  induction 1 as [|s states Hn N IH]; intros Hin; [destruct Hin|]. cbn [map]. unfold realSum in *. cbn [fold_right]. unfold sameNumbers at 1. destruct (list_eq_dec (list_eq_dec Z.eq_dec) s0 s) as [E|E].
  - subst s. assert (Z0 : forall m, ~ In s0 m -> fold_right Rplus 0%R (map (fun s' => if sameNumbers s0 s' then v else 0%R) m) = 0%R).
    { clear. induction m as [|a m IH]; intros H; [reflexivity|]. cbn [map fold_right]. rewrite IH by (intros X; apply H; right; exact X). unfold sameNumbers. destruct (list_eq_dec _ s0 a) as [E|E]; [exfalso; apply H; left; congruence|ring]. }
    rewrite (Z0 states Hn). ring.
  - destruct Hin as [<-|Hin]; [congruence|]. rewrite (IH Hin). ring.
Qed.

Context (prs : list cproc) (APS : forall pr, In pr prs -> apartC L basis (cp_spec pr)) (back : Z -> Z) (RV : reversible names prs back).
Lemma back_range i : In i (zrange 0 (zlen prs - 1)) -> In (back i) (zrange 0 (zlen prs - 1)) /\ back (back i) = i.
Proof using RV. intros Hi. apply In_zrange in Hi. destruct (zget_lt prs i) as [pr Ei]; [lia|]. destruct (RV i pr Ei) as (B & pr' & E' & _). split; [|exact B]. apply zget_range in E'. apply In_zrange. lia. Qed.
Lemma back_perm : Permutation (map back (zrange 0 (zlen prs - 1))) (zrange 0 (zlen prs - 1)).
Proof using RV.
  apply NoDup_Permutation.
  - assert (G : forall l, NoDup l -> (forall i, In i l -> In i (zrange 0 (zlen prs - 1))) -> NoDup (map back l)).
    { induction 1 as [|i l Hn N IH]; intros Hs; [constructor|]. cbn [map]. constructor; [|apply IH; intros j Hj; apply Hs; right; exact Hj]. intros Hin. apply in_map_iff in Hin. destruct Hin as (j & E & Hj). apply Hn.
      destruct (back_range i (Hs i (or_introl eq_refl))) as [_ B1], (back_range j (Hs j (or_intror Hj))) as [_ B2]. congruence. }
    apply G; [apply NoDup_zrange|auto].
  - apply NoDup_zrange.
  - intros i. split.
    + intros Hin. apply in_map_iff in Hin. destruct Hin as (j & <- & Hj). apply back_range. exact Hj.
    + intros Hi. apply in_map_iff. exists (back i). destruct (back_range i Hi). auto.
Qed.
(** one term of the rate from s to s' *)
Definition term (s s' : pstate) (i x : Z) : Z := match zget prs i with Some pr => if sameNumbers (happened pr x s) s' then eventRate pr x s else 0 | None => 0 end.
Lemma between_terms s s' : rateBetween L basis names prs s s' = zsum (map (fun i => zsum (map (term s s' i) (sites L))) (zrange 0 (zlen prs - 1))).
Proof using.
  unfold rateBetween. rewrite <- (zsum_numbers prs (fun _ pr => zsum (map (fun x => if sameNumbers (happened pr x s) s' then eventRate pr x s else 0) (sites L))) _ ltac:(reflexivity)).
  f_equal. apply map_ext. intros i. unfold term. destruct (zget prs i) as [pr|]; [reflexivity|]. clear. induction (sites L) as [|x l IH]; [reflexivity|]. cbn [map]. rewrite PBase.zsum_cons, <- IH. reflexivity.
Qed.
Context (states : list pstate) (w : pstate -> R) (SHA : forall s, In s states -> wellShaped L names s) (DB : detailedBalance L basis names prs back states w).
Lemma same_spec s s' : sameNumbers s s' = true <-> s = s'.
Proof using. unfold sameNumbers. destruct (list_eq_dec _ s s'); split; intros; congruence. Qed.
Lemma term_balance s s' i x : In s states -> In s' states -> In i (zrange 0 (zlen prs - 1)) -> In x (sites L) -> (w s' * IZR (term s' s i x) = w s * IZR (term s s' (back i) x))%R.
Proof using ND APS RV SHA DB.
  intros Hs Hs' Hi Hx. apply In_zrange in Hi. destruct (zget_lt prs i) as [pr Ei]; [lia|]. destruct (RV i pr Ei) as (B & pr' & Ei' & U). unfold term. rewrite Ei, Ei'. unfold SChain.eventRate.
  destruct (canHappen pr x s' && sameNumbers (happened pr x s') s)%bool eqn:E.
  - apply andb_true_iff in E. destruct E as [HC HE]. rewrite HE, HC. apply same_spec in HE. destruct (undone pr pr' x s' (SHA _ Hs') (APS pr (zget_In _ _ _ Ei)) U HC) as [U1 U2]. rewrite HE in U1, U2. rewrite U1, (proj2 (same_spec _ _) U2).
    rewrite (DB s' i pr pr' x Hs' Ei Ei' Hx HC), HE. reflexivity.
  - assert (Z1 : (if sameNumbers (happened pr x s') s then if canHappen pr x s' then cp_rate pr x s' else 0 else 0) = 0) by (destruct (canHappen pr x s'), (sameNumbers (happened pr x s') s); reflexivity || discriminate E). rewrite Z1.
    assert (Z2 : (if sameNumbers (happened pr' x s) s' then if canHappen pr' x s then cp_rate pr' x s else 0 else 0) = 0).
    { destruct (sameNumbers (happened pr' x s) s') eqn:E1; [|reflexivity]. destruct (canHappen pr' x s) eqn:E2; [|reflexivity]. exfalso. apply same_spec in E1.
      destruct (undone pr' pr x s (SHA _ Hs) (APS pr' (zget_In _ _ _ Ei')) (undoes_sym _ _ _ U) E2) as [U1 U2]. rewrite E1 in U1, U2. apply same_spec in U2. rewrite U1, U2 in E. discriminate. }
    rewrite Z2. ring.
Qed.
(** with detailed balance the flow from s' to s is that from s to s' *)
Lemma flow_balance s s' : In s states -> In s' states -> (w s' * IZR (rateBetween L basis names prs s' s) = w s * IZR (rateBetween L basis names prs s s'))%R.
Proof using ND APS RV SHA DB.
  intros Hs Hs'. rewrite !between_terms. set (l := zrange 0 (zlen prs - 1)). rewrite <- !realSum_IZR.
  assert (E : forall i, In i l -> (w s' * IZR (zsum (map (term s' s i) (sites L))) = w s * IZR (zsum (map (term s s' (back i)) (sites L))))%R).
  { intros i Hi. rewrite <- !realSum_IZR, <- !realSum_scale, !map_map. f_equal. apply map_ext_in. intros x Hx. apply term_balance; auto. }
  rewrite <- !realSum_scale, !map_map.
  rewrite (map_ext_in _ (fun i => w s * IZR (zsum (map (term s s' (back i)) (sites L))))%R l E).
  rewrite <- (map_map back (fun i => (w s * IZR (zsum (map (term s s' i) (sites L))))%R)). apply realSum_perm. apply Permutation_map. exact back_perm.
Qed.
(** all events lead to some state of the list *)
Lemma between_all s : NoDup states -> closedUnder L basis names prs states -> In s states -> realSum (map (fun s' => IZR (rateBetween L basis names prs s s')) states) = IZR (allRates L basis names prs s).
Proof using.
  intros N CL Hs. unfold rateBetween, allRates, ratesOf. rewrite <- realSum_IZR.
  rewrite (map_ext _ (fun s' => realSum (map (fun pr => IZR (zsum (map (fun x => if sameNumbers (happened pr x s) s' then eventRate pr x s else 0) (sites L)))) prs)) (fun s' => eq_sym (realSum_IZR _ prs))).
  rewrite realSum_swap. f_equal. apply map_ext_in. intros pr Hpr. rewrite <- realSum_IZR.
  rewrite (map_ext _ (fun s' => realSum (map (fun x => IZR (if sameNumbers (happened pr x s) s' then eventRate pr x s else 0)) (sites L))) (fun s' => eq_sym (realSum_IZR _ (sites L)))).
  rewrite realSum_swap. f_equal. apply map_ext_in. intros x Hx. unfold SChain.eventRate. destruct (canHappen pr x s) eqn:HC.
  - apply In_zget in Hpr. destruct Hpr as [i Ei]. transitivity (realSum (map (fun s' => if sameNumbers (happened pr x s) s' then IZR (cp_rate pr x s) else 0%R) states)); [|exact (realSum_only states _ _ N (CL s i pr x Hs Ei Hx HC))]. f_equal. apply map_ext. intros s'. destruct (sameNumbers _ _); reflexivity.
  - transitivity (realSum (map (fun _ : pstate => 0%R) states)); [|apply realSum_zero]. f_equal. apply map_ext. intros s'. destruct (sameNumbers _ _); reflexivity.
Qed.
Lemma balance_stationary : NoDup states -> closedUnder L basis names prs states -> stationary L basis names prs states w.
Proof using ND APS RV SHA DB.
  intros N CL s Hs. rewrite (map_ext_in _ (fun s' => w s * IZR (rateBetween L basis names prs s s'))%R states (fun s' Hs' => flow_balance s s' Hs Hs')). rewrite <- (map_map (fun s' => IZR (rateBetween L basis names prs s s')) (fun x => w s * x)%R). rewrite realSum_scale, (between_all s N CL Hs). reflexivity.
Qed.
End Undo.
