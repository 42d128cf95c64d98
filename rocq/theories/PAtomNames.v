(** The recorded types of the atoms are names of the simulation. *)
From Verif Require Import PBase SModel PStep PRun PPerform PPlain PNoUB PChain2.
Open Scope Z_scope.
Open Scope list_scope.

Definition drawnFrom (names : list string) (cf : config) : Prop :=
  (forall s, In s (cf_aidelements cf) -> In s names) /\ (forall els s, In els (cf_elements cf) -> In s els -> In s names) /\ (forall s, In s (cf_names cf) -> In s names).
Lemma entry_drawn names pe ce cf aff pos cf' aff' pos' : performEntry pe ce (cf, aff, pos) = Some (cf', aff', pos') -> drawnFrom names cf -> drawnFrom names cf'.
Proof.
  unfold performEntry. intros H (J & K & N). ob H as ac Ea. destruct ac; [|injection H as <- _ _; repeat split; assumption].
  ob H as id E1. ob H as c E2. ob H as ac E3. ob H as t E4. ob H as t' E5. ob H as ty E6. ob H as els E7. ob H as el E8. ob H as ae E9. ob H as a' E10. ob H as mo E11. ob H as re E12. injection H as <- _ _.
  assert (EK : forall s, In s els -> In s names) by (intros s Hs; apply N; eapply elementsOf_In; eauto).
  unfold drawnFrom. cbn [cf_aidelements cf_elements cf_names]. split; [|split; [|exact N]].
  - destruct (pe_hasmove pe); [injection E9 as <-; exact J|]. ob E9 as e Ee. intros s Hs. destruct (zset_In _ _ _ _ _ E9 Hs) as [->|X]; [apply EK; eapply zget_In; eauto|auto].
  - intros l s Hl Hs. destruct (zset_In _ _ _ _ _ E8 Hl) as [->|X]; [auto|eapply K; eauto].
Qed.
Lemma loop_drawn names pl : forall sl st cf' aff' pos', performLoop pl sl st = Some (cf', aff', pos') -> drawnFrom names (fst (fst st)) -> drawnFrom names cf'.
Proof.
  induction pl as [|pe pl IH]; intros sl st cf' aff' pos' H J; cbn [performLoop] in H; [injection H as ->; exact J|]. destruct sl as [|ce sl]; [discriminate|]. ob H as st1 E. destruct st as [[cf aff] pos]. destruct st1 as [[cf1 aff1] pos1].
  eapply IH; [exact H|]. eapply entry_drawn; eauto.
Qed.
Lemma idUpdate_drawn names ups : forall cf cf', ofold applyIdUpdate ups cf = Some cf' -> drawnFrom names cf -> drawnFrom names cf'.
Proof.
  induction ups as [|[id y] ups IH]; intros cf cf' H J; cbn [ofold] in H; [injection H as <-; exact J|]. ob H as cf1 E. apply (IH _ _ H). unfold applyIdUpdate in E. ob E as aid E1. ob E as els E2. ob E as e E3. ob E as ae E4. injection E as <-. destruct J as (J & K & N).
  split; [|split; [exact K|exact N]]. cbn [set_ids cf_aidelements]. intros s Hs. destruct (zset_In _ _ _ _ _ E4 Hs) as [->|X]; [eapply K; eapply zget_In; eauto|auto].
Qed.
Lemma perform_drawn names cf p x cf' p' : performBucketProcess cf p x = Some (cf', p') -> drawnFrom names cf -> drawnFrom names cf'.
Proof.
  unfold performBucketProcess. cbv zeta. intros H J. ob H as sl E1. ob H as r E2. destruct r as [[cf1 aff] pos]. ob H as ups E3. ob H as cf2 E4. injection H as <- <-. eapply idUpdate_drawn; [exact E4|]. eapply loop_drawn; [exact E2|]. exact J.
Qed.
Lemma step_drawn names md u1 u2 md' : singleStep md u1 u2 = Some md' -> drawnFrom names (md_cf md) -> drawnFrom names (md_cf md').
Proof.
  intros H J. destruct (singleStep_info _ _ _ _ H) as (i & p & site & cf1 & p1 & SI & it1 & _ & _ & _ & _ & mt' & it' & cf' & CM & ->).
  destruct SI as (_ & _ & q & _ & _ & Eperf & _). cbn [md_cf]. destruct (calculateMatching_cf _ _ _ _ _ _ _ _ CM) as [mls ->]. exact (perform_drawn _ _ _ _ _ _ Eperf J).
Qed.
Lemma reach_drawn names ranks hash L cf it md : drawnFrom names cf -> reachable ranks hash L cf it md -> drawnFrom names (md_cf md).
Proof.
  intros J. apply (reach_ind _ _ _ _ _ (fun md => drawnFrom names (md_cf md))).
  - intros md0 E0. destruct (mkLatticeModel_cfg _ _ _ _ _ _ E0). unfold drawnFrom. rewrite sc_aidel, sc_elements, sc_names. exact J.
  - intros md1 u1 u2 md' _ IH H. eapply step_drawn; eauto.
Qed.
