(** Reordered and rescaled processes in the Markov chain of SChain.v. *)
From Coq Require Import Reals Lra.
From Verif Require Import PPyProcess PPyChain3 PBase SModel SChain SLaw SRecast.
From Coq Require Import ZifyBool.
Open Scope list_scope.
Open Scope Z_scope.

Lemma zsum_index {A} (g : A -> Z) l : zsum (map g l) = zsum (map (fun i => match zget l i with Some a => g a | None => 0 end) (zrange 0 (zlen l - 1))).
Proof.
  f_equal. apply zget_ext. intros i. rewrite !zget_map. destruct (zget l i) as [a|] eqn:E.
    + pose proof (zget_range _ _ _ E). rewrite zget_zrange by lia. cbn [option_map]. replace (0 + i) with i by lia. rewrite E. reflexivity.
    + destruct (zget (zrange 0 (zlen l - 1)) i) as [j|] eqn:Ej; [|reflexivity]. pose proof (zget_range _ _ _ Ej) as Hr. rewrite zlen_zrange in Hr. destruct (zget_lt l i) as [a Ea]; [lia|]. congruence.
Qed.
Lemma reordered_sum {A} f (g : A -> Z) l l' : reordered f l l' -> zsum (map g l') = zsum (map g l).
Proof.
  intros (HL & HI & HG). rewrite (zsum_index g l), (zsum_index g l'), HL. set (I := zrange 0 (zlen l - 1)).
  assert (P : Permutation (map f I) I).
  { apply NoDup_Permutation_bis.
    - apply NoDup_map_inj; [|apply NoDup_zrange]. intros a b Ha Hb. apply In_zrange in Ha, Hb. apply HI; lia.
    - rewrite map_length. lia.
    - intros y Hy. apply in_map_iff in Hy. destruct Hy as (i & <- & Hi). apply In_zrange in Hi. destruct (zget_lt l i) as [a Ea]; [lia|]. apply HG in Ea. apply zget_range in Ea. apply In_zrange. lia. }
  rewrite <- (zsum_perm _ _ (Permutation_map (fun i => match zget l' i with Some a => g a | None => 0 end) P)), map_map. f_equal. apply map_ext_in. intros i Hi. apply In_zrange in Hi.
  destruct (zget_lt l i) as [a Ea]; [lia|]. rewrite Ea, (HG _ _ Ea). reflexivity.
Qed.
Lemma reordered_map {A B} f (h : A -> B) l l' : reordered f l l' -> reordered f (map h l) (map h l').
Proof.
  intros (HL & HI & HG). split; [rewrite !zlen_map; exact HL|]. split; [rewrite zlen_map; exact HI|]. intros i b. rewrite !zget_map. destruct (zget l i) as [a|] eqn:E; [|discriminate]. rewrite (HG _ _ E). auto.
Qed.
Lemma zsum_scale {A} (g g' : A -> Z) m n l : (forall a, In a l -> n * g' a = m * g a) -> n * zsum (map g' l) = m * zsum (map g l).
Proof. induction l as [|a l IH]; intros H; [cbn; lia|]. cbn [map]. rewrite !zsum_cons, !Z.mul_add_distr_l, (H a), IH; [reflexivity| |left; reflexivity]. intros b Hb. apply H. right. exact Hb. Qed.

Section Recast.
Context (L : lattice) (basis : list coord) (names : list string).
Lemma reordered_rates f prs prs' s : reordered f prs prs' -> allRates L basis names prs' s = allRates L basis names prs s.
Proof. apply reordered_sum. Qed.
(** all processes of the events are processes of the list *)
Lemma reordered_law f prs prs' es : reordered f prs prs' -> forall s, Forall (fun e => 0 <= fst (fst e) < zlen prs) es ->
  pathLaw L basis names prs' s (renumbered f es) = pathLaw L basis names prs s es.
Proof.
  intros RO. induction es as [|[[i x] w] es IH]; intros s PE; [reflexivity|]. inversion PE as [|? ? Hi PE']; subst. cbn [fst] in Hi. cbn [renumbered map fst snd pathLaw].
  destruct (zget_lt prs i) as [pr Ei]; [lia|]. rewrite Ei. pose proof RO as (_ & _ & HG). rewrite (HG _ _ Ei), (reordered_rates f prs prs' s RO). f_equal. apply IH. exact PE'.
Qed.
Lemma can_same pr pr' x s : cp_basis pr' = cp_basis pr -> cp_spec pr' = cp_spec pr -> canHappen L basis names pr' x s = canHappen L basis names pr x s.
Proof. intros E1 E2. unfold canHappen, cp_rows. rewrite E1, E2. reflexivity. Qed.
Lemma happened_same pr pr' x s : cp_spec pr' = cp_spec pr -> happened L basis names pr' x s = happened L basis names pr x s.
Proof. intros E2. unfold happened, cp_rows. rewrite E2. reflexivity. Qed.
Context (m n : Z) (Hm : 0 < m) (Hn : 0 < n).
Lemma rescaled_event pr pr' x s : cp_basis pr' = cp_basis pr -> cp_spec pr' = cp_spec pr -> (forall x s, n * cp_rate pr' x s = m * cp_rate pr x s) ->
  n * eventRate L basis names pr' x s = m * eventRate L basis names pr x s.
Proof using. intros E1 E2 E3. unfold eventRate. rewrite (can_same pr pr' x s E1 E2). destruct (canHappen _ _ _ _ _ _); [apply E3|lia]. Qed.
Lemma rescaled_rates prs prs' s : rescaled m n prs prs' -> n * allRates L basis names prs' s = m * allRates L basis names prs s.
Proof using.
  intros H. induction H as [|pr pr' prs prs' (E1 & E2 & E3) H IH]; [unfold allRates; cbn; lia|]. unfold allRates in *. cbn [map]. rewrite !zsum_cons, !Z.mul_add_distr_l, IH. f_equal.
  unfold ratesOf. apply zsum_scale. intros x _. apply rescaled_event; assumption.
Qed.
Lemma rescaled_get prs prs' i pr : rescaled m n prs prs' -> zget prs i = Some pr ->
  exists pr', zget prs' i = Some pr' /\ cp_basis pr' = cp_basis pr /\ cp_spec pr' = cp_spec pr /\ forall x s, n * cp_rate pr' x s = m * cp_rate pr x s.
Proof using. intros H E. destruct (PPyChain3.Forall2_to _ _ _ H i pr E) as (pr' & E' & K). eauto. Qed.
Lemma rescaled_none prs prs' i : rescaled m n prs prs' -> zget prs i = None -> zget prs' i = None.
Proof using.
  intros H E. destruct (zget prs' i) as [pr'|] eqn:E'; [|reflexivity]. pose proof (PPyProcess.Forall2_zlen _ _ _ H) as HL. pose proof (zget_range _ _ _ E') as Hr. destruct (zget_lt prs i) as [pr Ei]; [lia|]. congruence.
Qed.
Lemma scale_ratio (e e' T T' : Z) : n * e' = m * e -> n * T' = m * T -> (IZR e' / IZR T' = IZR e / IZR T)%R.
Proof using Hm Hn.
  intros H1 H2. assert (Hm' : (0 < IZR m)%R) by (apply IZR_lt; exact Hm). assert (Hn' : (0 < IZR n)%R) by (apply IZR_lt; exact Hn).
  apply (f_equal IZR) in H1, H2. rewrite !mult_IZR in H1, H2. destruct (Z.eq_dec T 0) as [-> |NT].
  - assert (E : IZR T' = 0%R) by nra. rewrite E. unfold Rdiv. rewrite Rinv_0. ring.
  - assert (NT0 : IZR T <> 0%R) by (apply not_0_IZR; exact NT). assert (NT' : IZR T' <> 0%R) by (intros E; rewrite E in H2; assert (IZR m * IZR T = 0)%R by lra; apply Rmult_integral in H; lra).
    assert (E1 : IZR e' = (IZR m * IZR e / IZR n)%R) by (field_simplify_eq; lra). assert (E2 : IZR T' = (IZR m * IZR T / IZR n)%R) by (field_simplify_eq; lra). rewrite E1, E2. field. repeat split; lra.
Qed.
Lemma rescaled_law prs prs' es : rescaled m n prs prs' -> forall s, pathLaw L basis names prs' s (retimed m n es) = pathLaw L basis names prs s es.
Proof using Hm Hn.
  intros RS. induction es as [|[[i x] w] es IH]; intros s; [reflexivity|]. cbn [retimed map fst snd pathLaw].
  destruct (zget prs i) as [pr|] eqn:Ei; [|rewrite (rescaled_none prs prs' i RS Ei); reflexivity].
  destruct (rescaled_get prs prs' i pr RS Ei) as (pr' & -> & E1 & E2 & E3). rewrite (happened_same pr pr' x s E2). f_equal; [|apply IH].
  pose proof (rescaled_rates prs prs' s RS) as HT. f_equal; [apply scale_ratio; [apply rescaled_event; assumption|exact HT]|].
  f_equal. f_equal. assert (Hm' : (0 < IZR m)%R) by (apply IZR_lt; exact Hm). apply (f_equal IZR) in HT. rewrite !mult_IZR in HT. field_simplify_eq; [|lra].
  transitivity (w * (IZR n * IZR (allRates L basis names prs' s)))%R; [ring|]. rewrite HT. ring.
Qed.
End Recast.
