(** Proofs about MRandom.v and the ranks of MSpmd.v. *)
From Verif Require Import PBase PMpi MSpmd PSpmd SRandom TMpi.
From Coq Require Import ZifyBool.
Open Scope Z_scope.
Open Scope list_scope.

Section R.
Context {E : Type} (seeded : rng -> Z -> E) (canonical : rng -> E -> deviate * E).
Local Notation generators := (generators E).

(** the engine in use *)
Definition engineOf (g : generators) : E :=
  match g_type g with MT => g_mt g | MINSTD => g_minstd g | RANLUX24 => g_ranlux24 g | RANLUX48 => g_ranlux48 g | DEVICE => g_mt g end.
Definition setEngine (g : generators) (e : E) : generators :=
  match g_type g with
  | MT => mkGen (g_type g) e (g_minstd g) (g_ranlux24 g) (g_ranlux48 g) (g_device g) (g_entropy g)
  | MINSTD => mkGen (g_type g) (g_mt g) e (g_ranlux24 g) (g_ranlux48 g) (g_device g) (g_entropy g)
  | RANLUX24 => mkGen (g_type g) (g_mt g) (g_minstd g) e (g_ranlux48 g) (g_device g) (g_entropy g)
  | RANLUX48 => mkGen (g_type g) (g_mt g) (g_minstd g) (g_ranlux24 g) e (g_device g) (g_entropy g)
  | DEVICE => g
  end.
Lemma set_type g e : g_type (setEngine g e) = g_type g.
Proof. destruct g as [[] ? ? ? ? ? ?]; reflexivity. Qed.
Lemma set_set g e e' : setEngine (setEngine g e) e' = setEngine g e'.
Proof. destruct g as [[] ? ? ? ? ? ?]; reflexivity. Qed.
Lemma engine_set g e : g_type g <> DEVICE -> engineOf (setEngine g e) = e.
Proof. destruct g as [[] ? ? ? ? ? ?]; cbn; intros H; try reflexivity. contradiction. Qed.
Lemma set_engine g : setEngine g (engineOf g) = g.
Proof. destruct g as [[] ? ? ? ? ? ?]; reflexivity. Qed.
Lemma draw_set g : g_type g <> DEVICE -> randomDouble01 canonical g = (fst (canonical (g_type g) (engineOf g)), setEngine g (snd (canonical (g_type g) (engineOf g)))).
Proof.
  destruct g as [[] ? ? ? ? ? ?]; cbn; intros H; try contradiction;
    match goal with |- context[canonical ?a ?b] => destruct (canonical a b) as [u e] end; reflexivity.
Qed.
Lemma seed_set s g : seedEngine seeded s g = setEngine g (seeded (g_type g) s).
Proof. destruct g as [[] ? ? ? ? ? ?]; reflexivity. Qed.

(** the loop as a function of the engine alone *)
Fixpoint propagateEngine (fuel : nat) (ty : rng) (rate : R) (t : double) (e : E) : option (double * list deviate * E) :=
  match fuel with
  | O => None
  | S fuel' =>
      let u := fst (canonical ty e) in let e' := snd (canonical ty e) in
      let dt := ddiv (dneg (dlog (realOf u))) rate in
      if isinf dt then (r <- propagateEngine fuel' ty rate t e' ;; Some (fst (fst r), u :: snd (fst r), snd r)) else Some (dplus t dt, [u], e')
  end.
Fixpoint loopEngine (fuel n : nat) (ty : rng) (md : model) (t : double) (e : E) : option (model * double * list stepNumbers * E * ending) :=
  match n with
  | O => Some (md, t, [], e, AllSteps)
  | S n' =>
      if totalAvailableSites (md_in md) =? 0 then Some (md, t, [], e, NoProcess)
      else
        r <- (rate <- totalRate (md_in md) ;; propagateEngine fuel ty (IZR rate) t e) ;;
        let u1 := fst (canonical ty (snd r)) in let e1 := snd (canonical ty (snd r)) in
        let u2 := fst (canonical ty e1) in let e2 := snd (canonical ty e1) in
        md' <- singleStep md u1 u2 ;;
        x <- loopEngine fuel n' ty md' (fst (fst r)) e2 ;;
        let '(md2, t2, ss, e3, en) := x in Some (md2, t2, (snd (fst r), (u1, u2)) :: ss, e3, en)
  end.
Lemma propagate_engine fuel rate t : forall g, g_type g <> DEVICE ->
  propagateDrawn canonical fuel rate t g = option_map (fun r => (fst (fst r), setEngine g (snd r))) (propagateEngine fuel (g_type g) rate t (engineOf g)).
Proof.
  induction fuel as [|fuel IH]; intros g Hg; [reflexivity|]. cbn [propagateDrawn propagateEngine]. rewrite draw_set by exact Hg. cbv zeta.
  destruct (isinf _); [|reflexivity]. rewrite IH by (rewrite set_type; exact Hg). rewrite set_type, engine_set by exact Hg.
  destruct (propagateEngine fuel _ _ _ _) as [r|]; [|reflexivity]. cbn [obind option_map fst snd]. rewrite set_set. reflexivity.
Qed.
Definition result (g : generators) (x : model * double * list stepNumbers * E * ending) : model * double * generators * ending :=
  let '(md, t, _, e, en) := x in (md, t, setEngine g e, en).
Lemma loop_engine fuel n : forall md t g, g_type g <> DEVICE ->
  loopDrawn canonical fuel n md t g = option_map (result g) (loopEngine fuel n (g_type g) md t (engineOf g)).
Proof.
  induction n as [|n IH]; intros md t g Hg; cbn [loopDrawn loopEngine].
  - cbn [option_map result]. rewrite set_engine. reflexivity.
  - destruct (totalAvailableSites (md_in md) =? 0); [cbn [option_map result]; rewrite set_engine; reflexivity|].
    destruct (totalRate (md_in md)) as [rate|]; cbn [obind]; [|reflexivity]. rewrite propagate_engine by exact Hg.
    destruct (propagateEngine fuel (g_type g) (IZR rate) t (engineOf g)) as [[[t1 cs] e1]|]; cbn [obind option_map fst snd]; [|reflexivity].
    rewrite draw_set by (rewrite set_type; exact Hg). rewrite set_set, set_type, engine_set by exact Hg.
    rewrite draw_set by (rewrite set_type; exact Hg). rewrite set_set, set_type, engine_set by exact Hg.
    destruct (singleStep md _ _) as [md'|]; cbn [obind]; [|reflexivity]. rewrite IH by (rewrite set_type; exact Hg). rewrite set_type, engine_set by exact Hg.
    destruct (loopEngine fuel n _ md' t1 _) as [[[[[md2 t2] ss] e3] en]|]; cbn [obind option_map result]; [|reflexivity]. rewrite set_set. reflexivity.
Qed.

(** ** a run of a single process *)
Definition prepared (c : rngControl) (s : Z) (g : generators) : generators := seedEngine seeded s (snd (setRngType (rc_type c) g)).
Lemma prepared_type c s g : g_type (prepared c s g) = rc_type c.
Proof. unfold prepared, setRngType, seedEngine. cbn [snd g_type]. destruct (rc_type c); reflexivity. Qed.
Lemma prepared_engine c s g : rc_type c <> DEVICE -> engineOf (prepared c s g) = seeded (rc_type c) s.
Proof. intros H. unfold prepared. rewrite seed_set, engine_set by exact H. reflexivity. Qed.
Definition ranOf (g : generators) (x : model * double * list stepNumbers * E * ending) : ran E :=
  let '(md, t, _, e, en) := x in Ran md t (setEngine g e) en.
Lemma runAlone_engine fuel n c now start t g : rc_type c <> DEVICE ->
  runAlone seeded canonical fuel n c now start t g =
  option_map (ranOf (prepared c (usedSeed c now) g)) (md <- start ;; loopEngine fuel n (rc_type c) md t (seeded (rc_type c) (usedSeed c now))).
Proof.
  intros Hc. unfold runAlone, setRngType. assert (Ei : isDevice (rc_type c) = false) by (destruct (rc_type c); try reflexivity; contradiction). rewrite Ei.
  destruct start as [md|]; cbn [obind]; [|reflexivity]. change (seedRandom seeded (rc_time c) now (rc_seed c) _) with (prepared c (usedSeed c now) g).
  rewrite loop_engine by (rewrite prepared_type; exact Hc). rewrite prepared_type, prepared_engine by exact Hc.
  destruct (loopEngine _ _ _ _ _ _) as [[[[[md2 t2] ss] e3] en]|]; reflexivity.
Qed.
Lemma propagateEngine_numbers fuel ty rate t : forall e t' cs e', propagateEngine fuel ty rate t e = Some (t', cs, e') ->
  (forall k, numbers canonical ty e (length cs + k) = cs ++ numbers canonical ty e' k) /\ (forall rest, propagateTime rate t (map realOf cs ++ rest) = Some (t', rest)).
Proof.
  induction fuel as [|fuel IH]; intros e t' cs e' H; cbn [propagateEngine] in H; [discriminate|].
  destruct (isinf (ddiv (dneg (dlog (realOf (fst (canonical ty e))))) rate)) eqn:EI.
  - ob H as r Er. destruct r as [[t1 cs1] e1]. injection H as <- <- <-. destruct (IH _ _ _ _ Er) as [H1 H2]. split.
    + intros k. cbn [length plus numbers app fst snd]. f_equal. apply H1.
    + intros rest. cbn [map app propagateTime fst snd]. rewrite EI. apply H2.
  - injection H as <- <- <-. split; [intros k; reflexivity|]. intros rest. cbn [map app propagateTime]. rewrite EI. reflexivity.
Qed.
Lemma loopEngine_numbers fuel n ty : forall md t e md' t' ss e' en, loopEngine fuel n ty md t e = Some (md', t', ss, e', en) ->
  (forall k, numbers canonical ty e (length (allNumbers ss) + k) = allNumbers ss ++ numbers canonical ty e' k) /\
  (forall rest, timedRun md t (choiceNumbers ss) (clockNumbers ss ++ rest) = Some (md', t', rest)) /\
  (en = AllSteps /\ length ss = n \/ en = NoProcess /\ (length ss < n)%nat /\ totalAvailableSites (md_in md') = 0).
Proof.
  induction n as [|n IH]; intros md t e md' t' ss e' en H; cbn [loopEngine] in H.
  - injection H as <- <- <- <- <-. split; [reflexivity|]. split; [reflexivity|]. left. auto.
  - destruct (Z.eqb_spec (totalAvailableSites (md_in md)) 0) as [E0|E0].
    + injection H as <- <- <- <- <-. split; [reflexivity|]. split; [reflexivity|]. right. split; [reflexivity|]. split; [cbn; lia|exact E0].
    + ob H as r Er. destruct r as [[t1 cs] e1]. ob Er as rate E1. cbn [fst snd] in H. ob H as md1 E2. ob H as x E3. destruct x as [[[[md2 t2] ss2] e3] en2]. injection H as <- <- <- <- <-.
      apply propagateEngine_numbers in Er. destruct Er as [N1 P1]. apply IH in E3. destruct E3 as (N2 & T2 & F2). split; [|split].
      * intros k. unfold allNumbers. cbn [flat_map fst snd]. fold (allNumbers ss2). rewrite <- !app_assoc. rewrite !app_length. cbn [length]. rewrite <- !Nat.add_assoc. rewrite N1. f_equal.
        cbn [app numbers plus fst snd]. do 2 f_equal. apply N2.
      * intros rest. unfold choiceNumbers, clockNumbers. cbn [map flat_map timedRun fst snd]. rewrite E1. cbn [obind]. rewrite map_app, <- app_assoc, P1. cbn [obind fst snd]. rewrite E2. cbn [obind]. apply T2.
      * destruct F2 as [[-> F]|(-> & F & Z0)]; [left|right]; cbn [length]; split; auto with arith; lia.
Qed.

(** ** the ranks *)
Lemma mkLatticeModel_ranks ranks hash L cf it md : mkLatticeModel ranks hash L cf it = Some md -> mt_ranks (md_mt md) = ranks.
Proof.
  unfold mkLatticeModel, calculateInitialMatching. intros H. ob H as md1 E1. ob E1 as cf1 F1. ob E1 as it1 F2. ob E1 as r F3. destruct r as [[mt it2] cf2]. injection E1 as <-. injection H as <-. cbn [md_mt].
  apply calculateMatching_ranks in F3. exact F3.
Qed.
Lemma agrees_loop fuel n ty : ty <> DEVICE -> forall md t e (G : Z -> generators), 1 <= mt_ranks (md_mt md) -> (forall r, g_type (G r) = ty /\ engineOf (G r) = e) ->
  agrees (mt_ranks (md_mt md)) (fun r => rankLoop r canonical fuel n md t (G r)) (option_map (fun x r => result (G r) x) (loopEngine fuel n ty md t e)).
Proof.
  intros Hty. induction n as [|n IH]; intros md t e G Hs HG; cbn [rankLoop loopEngine].
  - cbn [option_map]. eapply agrees_same; [|apply agrees_ret]. intros r _. cbn [result]. destruct (HG r) as [_ <-]. rewrite set_engine. reflexivity.
  - destruct (totalAvailableSites (md_in md) =? 0).
    { cbn [option_map]. eapply agrees_same; [|apply agrees_ret]. intros r _. cbn [result]. destruct (HG r) as [_ <-]. rewrite set_engine. reflexivity. }
    destruct (totalRate (md_in md)) as [rate|]; cbn [obind]; [|apply agrees_bind_None; apply agrees_fault; exact Hs].
    destruct (propagateEngine fuel ty (IZR rate) t e) as [[[t1 cs] e1]|] eqn:EP; cbn [obind fst snd].
    + eapply agrees_bind with (a := fun r => (t1, setEngine (G r) e1)).
      * eapply agrees_ext; [|apply agrees_ret]. intros r _. cbn beta. destruct (HG r) as [HT HE]. rewrite propagate_engine by congruence. rewrite HT, HE, EP. reflexivity.
      * cbn beta. set (u1 := fst (canonical ty e1)). set (e2 := snd (canonical ty e1)). set (u2 := fst (canonical ty e2)). set (e3 := snd (canonical ty e2)).
        apply agrees_ext with (m := fun r => pbind (rankStep r md u1 u2) (fun md' => rankLoop r canonical fuel n md' t1 (setEngine (G r) e3))).
        { intros r _. cbn [snd fst]. destruct (HG r) as [HT HE]. assert (ND : g_type (G r) <> DEVICE) by congruence. rewrite draw_set by (rewrite set_type; exact ND).
          rewrite set_set, set_type, engine_set by exact ND. rewrite draw_set by (rewrite set_type; exact ND). rewrite set_set, set_type, engine_set by exact ND. rewrite HT. reflexivity. }
        pose proof (agrees_step md u1 u2 Hs) as HS. destruct (singleStep md u1 u2) as [md'|] eqn:ES; cbn [obind alike option_map] in *.
        -- eapply agrees_bind; [exact HS|]. cbn beta.
           assert (HG' : forall r, g_type (setEngine (G r) e3) = ty /\ engineOf (setEngine (G r) e3) = e3).
           { intros r. destruct (HG r) as [HT HE]. rewrite set_type. split; [exact HT|]. apply engine_set. congruence. }
           rewrite <- (singleStep_ranks _ _ _ _ ES) in *.
           specialize (IH md' t1 e3 (fun r => setEngine (G r) e3) Hs HG').
           destruct (loopEngine fuel n ty md' t1 e3) as [[[[[md2 t2] ss] e4] en]|]; cbn [obind option_map] in *; [|exact IH].
           eapply agrees_same; [|exact IH]. intros r _. cbn [result]. rewrite set_set. reflexivity.
        -- apply agrees_bind_None. exact HS.
    + apply agrees_bind_None. apply agrees_ext with (m := fun _ => Fault); [|apply agrees_fault; exact Hs]. intros r _. destruct (HG r) as [HT HE]. rewrite propagate_engine by congruence. rewrite HT, HE, EP. reflexivity.
Qed.
Lemma zget_map_ranks (f : Z -> Z) size : 1 <= size -> zget (map f (ranksOf size)) 0 = Some (f 0).
Proof. intros Hs. unfold ranksOf, zrange. replace (Z.to_nat (size - 1 - 0 + 1)) with (S (Z.to_nat (size - 1))) by lia. reflexivity. Qed.
Lemma agrees_seed ranks c (now : Z -> Z) (G : Z -> generators) : 1 <= ranks ->
  agrees ranks (fun r => rankSeed r seeded (rc_time c) (now r) (rc_seed c) (G r)) (Some (fun r => seedEngine seeded (usedSeed c (now 0)) (G r))).
Proof.
  intros Hs. unfold rankSeed, usedSeed. destruct (rc_time c); [|apply agrees_ret]. cbn [agrees].
  rewrite <- (map_map (fun r => (if r =? 0 then now r else 0, fun w => Ret (seedEngine seeded (rc_seed c + w) (G r)))) (fun vk => Bcast (fst vk) (snd vk))).
  apply allBcast with (now 0).
  - rewrite map_map. cbn [fst]. rewrite zget_map_ranks by exact Hs. reflexivity.
  - rewrite map_map. cbn [snd]. rewrite <- (map_map (fun r => seedEngine seeded (rc_seed c + now 0) (G r)) Ret). apply allDone.
Qed.
Lemma agrees_run fuel n ranks c (now : Z -> Z) (start : Z -> prog model) omd t (G : Z -> generators) : 1 <= ranks -> rc_type c <> DEVICE ->
  agrees ranks start (alike omd) -> (forall md, omd = Some md -> mt_ranks (md_mt md) = ranks) ->
  agrees ranks (fun r => rankRun r seeded canonical fuel n c (now r) (start r) t (G r))
    (option_map (fun x r => ranOf (prepared c (usedSeed c (now 0)) (G r)) x) (md <- omd ;; loopEngine fuel n (rc_type c) md t (seeded (rc_type c) (usedSeed c (now 0))))).
Proof.
  intros Hs Hc HS HR. unfold rankRun, setRngType. assert (Ei : isDevice (rc_type c) = false) by (destruct (rc_type c); try reflexivity; contradiction). rewrite Ei.
  eapply agrees_bind; [apply agrees_seed; exact Hs|]. cbn beta. destruct omd as [md|]; cbn [alike option_map obind] in *; [|apply agrees_bind_None; exact HS].
  eapply agrees_bind; [exact HS|]. cbn beta. specialize (HR md eq_refl). subst ranks.
  pose proof (agrees_loop fuel n (rc_type c) Hc md t (seeded (rc_type c) (usedSeed c (now 0))) (fun r => prepared c (usedSeed c (now 0)) (G r)) Hs (fun r => conj (prepared_type _ _ _) (prepared_engine c _ (G r) Hc))) as HL.
  destruct (loopEngine _ _ _ _ _ _) as [[[[[md2 t2] ss] e3] en]|]; cbn [option_map] in *.
  - eapply agrees_bind; [exact HL|]. cbn [result ranOf]. apply agrees_ret.
  - apply agrees_bind_None. exact HL.
Qed.
End R.
