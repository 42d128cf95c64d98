(** Theorems on the control parameters: C46, and C47 for accepted parameters. *)
From Verif Require Import PBase SControl SRun PRunLoop PRunAll TRun.
Open Scope Z_scope.
Open Scope list_scope.

Lemma asInt_iff v z : asInt v = Some z <-> isInt v z.
Proof. unfold isInt. destruct v as [|[]| | | | | |]; cbn; split; intros H; try discriminate; try (injection H as <-; auto); destruct H as [H|[[H E]|[H E]]]; try discriminate; try injection H as <-; subst; reflexivity. Qed.
Lemma checkPositiveInteger_iff v d z : 0 <= d -> checkPositiveInteger v d = Ok z <-> countArg v d z.
Proof.
  intros Hd. unfold checkPositiveInteger, countArg. rewrite <- asInt_iff. destruct v as [|b|x|f|s|l|l|n]; cbn [asInt].
  - destruct (Z.ltb_spec d 0); [lia|]. split; [intros H'; injection H' as <-; auto|intros [[_ ->]|[E _]]; [reflexivity|discriminate]].
  - destruct b; cbn; (split; [intros H; injection H as <-; right; split; [reflexivity|lia]|intros [[E _]|[E _]]; [discriminate|injection E as <-; reflexivity]]).
  - destruct (Z.ltb_spec x 0); (split; [intros H'; try discriminate; injection H' as <-; auto|intros [[E _]|[E E2]]; [discriminate|injection E as <-; try lia; reflexivity]]).
  - split; [discriminate|intros [[E _]|[E _]]; discriminate].
  - split; [discriminate|intros [[E _]|[E _]]; discriminate].
  - split; [discriminate|intros [[E _]|[E _]]; discriminate].
  - split; [discriminate|intros [[E _]|[E _]]; discriminate].
  - split; [discriminate|intros [[E _]|[E _]]; discriminate].
Qed.
Lemma checkPositiveInteger_raise v d e : checkPositiveInteger v d = Raise e -> e = KmcError.
Proof. unfold checkPositiveInteger. destruct v; try destruct (asInt _); try destruct (_ <? 0); intros H; congruence. Qed.
Lemma rng_iff v s : checkRngType v = Ok s <-> rngArg v s.
Proof.
  unfold checkRngType, rngArg. destruct v as [|b|x|f|s'|l|l|n].
  - split; [intros H; injection H as <-; auto|intros [[_ ->]|[E _]]; [reflexivity|discriminate]].
  - cbn. split; [discriminate|intros [[E _]|[E _]]; discriminate].
  - cbn. split; [discriminate|intros [[E _]|[E _]]; discriminate].
  - cbn. split; [discriminate|intros [[E _]|[E _]]; discriminate].
  - destruct (existsb (String.eqb s') rngNames) eqn:E.
    + apply existsb_exists in E. destruct E as (y & Y1 & Y2). apply String.eqb_eq in Y2. subst y. split; [intros H; injection H as <-; auto|intros [[E _]|[E _]]; [discriminate|injection E as <-; reflexivity]].
    + split; [discriminate|]. intros [[X _]|[X I]]; [discriminate|]. injection X as <-. exfalso. assert (existsb (String.eqb s') rngNames = true) by (apply existsb_exists; exists s'; split; [exact I|apply String.eqb_refl]). congruence.
  - destruct (hashable _); (split; [discriminate|intros [[E _]|[E _]]; discriminate]).
  - destruct (hashable _); (split; [discriminate|intros [[E _]|[E _]]; discriminate]).
  - destruct (hashable _); (split; [discriminate|intros [[E _]|[E _]]; discriminate]).
Qed.
Definition timeCheck (dtime : pyval) : outcome (option pyfloat) := match dtime with VNone => Ok None | VFloat f => if fnonpos f then Raise KmcError else Ok (Some f) | _ => Raise KmcError end.
Definition dumpCheck (dump : pyval) : outcome (option Z) := match dump with VNone => Ok None | _ => try z <- checkPositiveInteger dump 1 ;; Ok (Some z) end.
Lemma time_iff v t : timeCheck v = Ok t <-> timeArg v t.
Proof.
  unfold timeCheck, timeArg. destruct v as [|b|x|f|s'|l|l|n]; try (split; [discriminate|intros [[E _]|(f & E & _)]; discriminate]).
  - split; [intros H; injection H as <-; auto|intros [[_ ->]|(f & E & _)]; [reflexivity|discriminate]].
  - destruct f as [x| | |]; cbn [fnonpos].
    + destruct (Z.leb_spec x 0).
      * split; [discriminate|intros [[E _]|(f & E & _ & _ & H')]; [discriminate|]]. injection E as <-. specialize (H' x eq_refl). lia.
      * split; [intros H'; injection H' as <-; right; exists (FNum x); repeat split; [discriminate|]; intros y E; injection E as <-; exact H|]. intros [[E _]|(f & E & -> & _)]; [discriminate|]. injection E as <-. reflexivity.
    + split; [intros H'; injection H' as <-; right; exists FInf; repeat split; [discriminate|]; discriminate|]. intros [[E _]|(f & E & -> & _)]; [discriminate|]. injection E as <-. reflexivity.
    + split; [discriminate|]. intros [[E _]|(f & E & _ & N & _)]; [discriminate|]. injection E as <-. congruence.
    + split; [intros H'; injection H' as <-; right; exists FNan; repeat split; [discriminate|]; discriminate|]. intros [[E _]|(f & E & -> & _)]; [discriminate|]. injection E as <-. reflexivity.
Qed.
Lemma dump_iff v d : dumpCheck v = Ok d <-> (v = VNone /\ d = None) \/ exists z, isInt v z /\ 0 <= z /\ d = Some z.
Proof.
  assert (C : v = VNone \/ v <> VNone) by (destruct v; auto; right; discriminate). destruct C as [->|Hn].
  - split; [intros H; injection H as <-; auto|intros [[_ ->]|(z & [E|[[E _]|[E _]]] & _)]; [reflexivity|discriminate..]].
  - assert (D : dumpCheck v = try z <- checkPositiveInteger v 1 ;; Ok (Some z)) by (destruct v; try reflexivity; congruence). rewrite D. destruct (checkPositiveInteger v 1) as [z|e] eqn:E; cbn [obind].
    + apply checkPositiveInteger_iff in E; [|lia]. destruct E as [[E _]|[E1 E2]]; [contradiction|]. split; [intros H; injection H as <-; eauto|]. intros [[X _]|(z' & X1 & X2 & ->)]; [contradiction|]. apply asInt_iff in X1. apply asInt_iff in E1. rewrite X1 in E1. injection E1 as ->. reflexivity.
    + split; [discriminate|]. intros [[X _]|(z & X1 & X2 & ->)]; [contradiction|]. assert (Y : checkPositiveInteger v 1 = Ok z) by (apply checkPositiveInteger_iff; [lia|right; auto]). congruence.
Qed.
Lemma KMCControlParameters_eq steps dump analyse seed dtime rng : KMCControlParameters steps dump analyse seed dtime rng =
  (try n <- checkPositiveInteger steps 0 ;; try d <- dumpCheck dump ;; try a <- checkPositiveInteger analyse 1 ;; try sd <- checkPositiveInteger seed 1 ;; try t <- timeCheck dtime ;;
   match t, d with Some _, Some _ => Raise KmcError | _, _ => try r <- checkRngType rng ;; Ok (mkParams n (match d, t with None, None => Some 1 | _, _ => d end) a (match seed with VNone => true | _ => false end) sd t r) end).
Proof. reflexivity. Qed.

(** ** C46 *)
(** The constructor accepts exactly the arguments that stand for parameters, and stores these. *)
Theorem C46_accepts steps dump analyse seed dtime rng p : KMCControlParameters steps dump analyse seed dtime rng = Ok p <-> standsFor steps dump analyse seed dtime rng p.
Proof.
  rewrite KMCControlParameters_eq. split.
  - destruct (checkPositiveInteger steps 0) as [n|] eqn:E1; [|discriminate]. cbn [obind]. destruct (dumpCheck dump) as [d|] eqn:E2; [|discriminate]. cbn [obind]. destruct (checkPositiveInteger analyse 1) as [a|] eqn:E3; [|discriminate]. cbn [obind].
    destruct (checkPositiveInteger seed 1) as [sd|] eqn:E4; [|discriminate]. cbn [obind]. destruct (timeCheck dtime) as [t|] eqn:E5; [|discriminate]. cbn [obind].
    apply checkPositiveInteger_iff in E1; [|lia]. apply checkPositiveInteger_iff in E3; [|lia]. apply checkPositiveInteger_iff in E4; [|lia]. apply dump_iff in E2. apply time_iff in E5.
    assert (TS : (match seed with VNone => true | _ => false end) = true <-> seed = VNone) by (destruct seed; split; congruence).
    assert (R : forall d', (try r <- checkRngType rng ;; Ok (mkParams n d' a (match seed with VNone => true | _ => false end) sd t r)) = Ok p ->
      ((dump = VNone /\ dtime = VNone /\ d' = Some 1) \/ (dump = VNone /\ dtime <> VNone /\ d' = None) \/ (dtime = VNone /\ exists z, isInt dump z /\ 0 <= z /\ d' = Some z)) -> standsFor steps dump analyse seed dtime rng p).
    { intros d' H HD. destruct (checkRngType rng) as [r|] eqn:E6; [|discriminate]. cbn [obind] in H. injection H as <-. apply rng_iff in E6. constructor; cbn; auto. }
    destruct t as [f|], d as [z|]; [discriminate| | |]; intros H; eapply R; try exact H; clear H R.
    + right. left. destruct E2 as [[-> _]|(z & _ & _ & E)]; [|discriminate]. destruct E5 as [[_ E]|(f' & -> & _)]; [discriminate|]. split; [reflexivity|]. split; [discriminate|reflexivity].
    + right. right. destruct E5 as [[-> _]|(f' & _ & E & _)]; [|discriminate]. destruct E2 as [[_ E]|(z' & Z1 & Z2 & E)]; [discriminate|]. split; [reflexivity|]. exists z'. auto.
    + left. destruct E5 as [[-> _]|(f' & _ & E & _)]; [|discriminate]. destruct E2 as [[-> _]|(z' & Z1 & Z2 & E)]; [auto|discriminate].
  - intros [S1 S2 S3 S4 S5 S6 S7]. apply checkPositiveInteger_iff in S1; [|lia]. apply checkPositiveInteger_iff in S2; [|lia]. apply checkPositiveInteger_iff in S3; [|lia]. apply rng_iff in S7. rewrite S1, S2, S3. cbn [obind].
    assert (TS : (match seed with VNone => true | _ => false end) = p_timeSeed p) by (destruct (p_timeSeed p); [rewrite (proj1 S4 eq_refl); reflexivity|destruct seed; try reflexivity; destruct S4 as [_ S4]; discriminate (S4 eq_refl)]).
    pose proof S5 as S5'. apply time_iff in S5. rewrite S5. cbn [obind]. rewrite S7. cbn [obind]. rewrite TS. destruct S6 as [(-> & -> & D)|[(-> & Hn & D)|(-> & z & Z1 & Z2 & D)]].
    + cbn. destruct S5' as [[_ ET]|(f & E & _)]; [|discriminate]. rewrite ET. destruct p; cbn in *; congruence.
    + cbn. destruct S5' as [[E _]|(f & E & ET & _)]; [congruence|]. rewrite ET. destruct p; cbn in *; congruence.
    + assert (DC : dumpCheck dump = Ok (Some z)) by (apply dump_iff; eauto). rewrite DC. cbn [obind]. destruct S5' as [[_ ET]|(f & E & _)]; [|discriminate]. rewrite ET. destruct p; cbn in *; congruence.
Qed.
(** All other arguments are rejected with KMCLib's Error, except for an rng_type that cannot be the key of a dict. *)
Theorem C46_rejects steps dump analyse seed dtime rng : (forall p, ~ standsFor steps dump analyse seed dtime rng p) -> hashable rng = true -> KMCControlParameters steps dump analyse seed dtime rng = Raise KmcError.
Proof.
  intros H Hh. destruct (KMCControlParameters steps dump analyse seed dtime rng) as [p|e] eqn:E; [exfalso; apply (H p), C46_accepts; exact E|]. f_equal. rewrite KMCControlParameters_eq in E.
  destruct (checkPositiveInteger steps 0) as [n|] eqn:E1; cbn [obind] in E; [|injection E as <-; eapply checkPositiveInteger_raise; eauto].
  destruct (dumpCheck dump) as [d|] eqn:E2; cbn [obind] in E; [|injection E as <-; unfold dumpCheck in E2; destruct dump eqn:ED; try discriminate E2; (destruct (checkPositiveInteger _ 1) eqn:EE; cbn [obind] in E2; [discriminate|injection E2 as <-; eapply checkPositiveInteger_raise; eauto])].
  destruct (checkPositiveInteger analyse 1) as [a|] eqn:E3; cbn [obind] in E; [|injection E as <-; eapply checkPositiveInteger_raise; eauto].
  destruct (checkPositiveInteger seed 1) as [sd|] eqn:E4; cbn [obind] in E; [|injection E as <-; eapply checkPositiveInteger_raise; eauto].
  destruct (timeCheck dtime) as [t|] eqn:E5; cbn [obind] in E; [|injection E as <-; unfold timeCheck in E5; destruct dtime; try congruence; destruct (fnonpos f); congruence].
  assert (RG : forall e', checkRngType rng = Raise e' -> e' = KmcError) by (intros e'; unfold checkRngType; destruct rng; try rewrite Hh; try discriminate; try congruence; destruct (existsb _ _); congruence).
  destruct t, d; try congruence; destruct (checkRngType rng) eqn:E6; cbn [obind] in E; try discriminate; injection E as <-; auto.
Qed.
(** The statement that accepted intervals are positive is false: 0 is accepted for both, *)
Theorem C46_zero_refuted : exists p, KMCControlParameters (VInt 10) (VInt 0) (VInt 0) VNone VNone VNone = Ok p /\ p_dump p = Some 0 /\ p_analyse p = 0.
Proof. eexists. split; [reflexivity|]. split; reflexivity. Qed.
(** and a dump_time_interval that is not a number. *)
Theorem C46_nan_refuted : exists p, KMCControlParameters (VInt 10) VNone VNone VNone (VFloat FNan) VNone = Ok p /\ p_dtime p = Some FNan.
Proof. eexists. split; reflexivity. Qed.
Example C46_example : KMCControlParameters (VInt 100) VNone (VInt 5) VNone VNone (VStr "MINSTD") = Ok (mkParams 100 (Some 1) 5 true 1 None "MINSTD"%string) /\
  KMCControlParameters (VInt 100) (VInt 3) VNone (VInt 17) (VFloat (FNum 2)) VNone = Raise KmcError /\ KMCControlParameters (VFloat (FNum 100)) VNone VNone VNone VNone VNone = Raise KmcError.
Proof. repeat split. Qed.

(** ** C47 for accepted control parameters *)
(** Accepted parameters with intervals other than zero: a run raises only for one of the three other reasons. *)
Theorem C47_accepted {St} (B : @backend St) env steps dump analyse seed dtime rng p ct traj nA nB s w' e :
  KMCControlParameters steps dump analyse seed dtime rng = Ok p -> toControl p = Some ct -> p_dump p <> Some 0 -> p_analyse p <> 0 -> (forall pre k, 0 <= k < nB -> env (pre ++ [CInterval k]) <> Ok 0) ->
  run B env ct traj nA nB (mkWorld s []) = (w', Raise e) ->
  (e = KmcError /\ exists j, 0 <= j <= ct_steps ct /\ bk_avail B (stateAt B s j) = 0) \/
  (exists j, 0 <= j < ct_steps ct /\ (snd (bk_propagate B (stateAt B s j)) = Raise e \/ snd (bk_single B (fst (bk_propagate B (stateAt B s j)))) = Raise e)) \/
  (exists c, answered env (w_log w') c (Raise e)).
Proof.
  intros HP HC HD HA HV H. apply C46_accepts in HP. destruct HP as [S1 S2 S3 S4 S5 S6 S7].
  assert (CT : ct_steps ct = p_steps p /\ ct_dump ct = p_dump p /\ ct_analyse ct = p_analyse p /\ (ct_dtime ct = None -> p_dtime p = None)) by (unfold toControl in HC; destruct (p_dtime p) as [[]|]; try discriminate; injection HC as <-; cbn; auto; repeat split; discriminate).
  destruct CT as (C1 & C2 & C3 & C4). assert (N : 0 <= ct_steps ct) by (rewrite C1; destruct S1 as [[_ ->]|[_ ?]]; lia).
  apply C47_positive_intervals in H; auto.
  - rewrite Z.max_r in H by exact N. exact H.
  - intros HN. specialize (C4 HN). rewrite C2. destruct S6 as [(_ & _ & D)|[(_ & D' & D)|(_ & z & _ & Z2 & D)]]; rewrite D in *.
    + exists 1. split; [reflexivity|lia].
    + destruct S5 as [[E _]|(f & _ & E & _)]; congruence.
    + exists z. split; [reflexivity|]. assert (z <> 0) by congruence. lia.
  - rewrite C3. destruct S2 as [[_ E]|[_ E]]; rewrite ?E in *; lia.
Qed.
(** Accepted parameters that make a run fail with ZeroDivisionError. *)
Theorem C47_accepted_refuted : exists p ct (B : @backend (Z * Z)) env s w', KMCControlParameters (VInt 10) (VInt 0) VNone VNone VNone VNone = Ok p /\ toControl p = Some ct /\
  (forall l, exists v, env l = Ok v) /\ (forall x, snd (bk_propagate B x) = Ok tt /\ snd (bk_single B x) = Ok tt) /\ run B env ct false 0 0 (mkWorld s []) = (w', Raise ZeroDivision).
Proof.
  eexists. eexists. exists (eB 3), eQuiet, (20, 0). eexists. split; [reflexivity|]. split; [reflexivity|]. split; [|split].
  - intros l. unfold eQuiet. destruct (rev l) as [|[]]; eauto.
  - intros x. split; reflexivity.
  - vm_compute. reflexivity.
Qed.
Print Assumptions C46_accepts. Print Assumptions C46_rejects. Print Assumptions C46_zero_refuted. Print Assumptions C46_nan_refuted. Print Assumptions C47_accepted. Print Assumptions C47_accepted_refuted.
