(** Lemmas on the run loop. *)
From Verif Require Import PBase SRun.
Open Scope Z_scope.
Open Scope list_scope.

Section Loop.
Context {St : Type} (B : @backend St) (env : list (@call St) -> outcome Z).
Notation call := (@call St).
Notation answered := (answered env). Notation raised := (raised env).
Lemma raised_last l c e : env (l ++ [c]) = Raise e -> raised (l ++ [c]) e. Proof using Type. intros H. exists l, c. auto. Qed.

Lemma bind_inv {A C} (m : @M St A) (f : A -> M C) w w' o : bind m f w = (w', o) ->
  (exists w1 a, m w = (w1, Ok a) /\ f a w1 = (w', o)) \/ (exists e, m w = (w', Raise e) /\ o = Raise e).
Proof using Type. unfold bind. destruct (m w) as [w1 [a|e]]; intros H; [left; eauto|right; inversion H; eauto]. Qed.
Lemma ask_inv c w w' o : ask env c w = (w', o) -> w_st w' = w_st w /\ w_log w' = w_log w ++ [c] /\ o = env (w_log w ++ [c]).
Proof using Type. unfold ask. intros H. inversion H. auto. Qed.
Lemma answered_app l l' c v : answered l c v -> answered (l ++ l') c v.
Proof using Type. intros (pre & post & -> & E). exists pre, (post ++ l'). split; [rewrite <- app_assoc; reflexivity|exact E]. Qed.
Lemma answered_last l c : answered (l ++ [c]) c (env (l ++ [c])).
Proof using Type. exists l, []. auto. Qed.
Lemma answered_In l c v : answered l c v -> In c l.
Proof using Type. intros (pre & post & -> & _). apply in_or_app. right. left. reflexivity. Qed.
(** an answer in an extension is an old one or belongs to the new part *)
Lemma answered_split l seg c v : answered (l ++ seg) c v -> answered l c v \/ In c seg.
Proof using Type.
  intros (pre & post & E & Ev). destruct (le_lt_dec (length l) (length pre)) as [H|H].
  - right. assert (X : skipn (length l) (l ++ seg) = skipn (length l) (pre ++ c :: post)) by congruence. rewrite skipn_app, skipn_all, Nat.sub_diag in X. cbn in X. rewrite skipn_app in X.
    replace (length l - length pre)%nat with 0%nat in X by lia. cbn in X. rewrite X. apply in_or_app. right. left. reflexivity.
  - left. assert (X : firstn (length l) (l ++ seg) = firstn (length l) (pre ++ c :: post)) by congruence. rewrite firstn_app, firstn_all, Nat.sub_diag in X. cbn in X. rewrite app_nil_r, firstn_app in X.
    rewrite (firstn_all2 (n := length l) pre) in X by lia. destruct (length l - length pre)%nat as [|n] eqn:En; [lia|]. cbn in X. exists pre, (firstn n post). rewrite X at 1. auto.
Qed.

Lemma each_inv (c : Z -> call) ks : forall w w' o, each (fun k => bind (ask env (c k)) (fun _ => ret tt)) ks w = (w', o) ->
  w_st w' = w_st w /\ exists n, (n <= length ks)%nat /\ w_log w' = w_log w ++ map c (firstn n ks) /\
    (forall j k, (S j < n)%nat -> nth_error ks j = Some k -> exists v, answered (w_log w') (c k) (Ok v)) /\
    match o with Ok _ => n = length ks | Raise e => (0 < n)%nat /\ raised (w_log w') e end.
Proof using Type.
  induction ks as [|k ks IH]; intros w w' o H; cbn [each] in H.
  - inversion H; subst. split; [reflexivity|]. exists 0%nat. cbn. rewrite app_nil_r. repeat split; auto; intros; lia.
  - apply bind_inv in H. destruct H as [(w1 & a & H1 & H)|(e & H1 & ->)]; apply bind_inv in H1.
    + destruct H1 as [(w2 & v & H1 & H2)|(e & H1 & H2)]; [|discriminate]. inversion H2; subst w2. apply ask_inv in H1. destruct H1 as (S1 & L1 & O1).
      apply IH in H. destruct H as (S2 & n & N1 & L2 & AN & O2). split; [congruence|]. exists (S n). cbn [length firstn map]. split; [lia|].
      assert (L3 : w_log w' = (w_log w ++ [c k]) ++ map c (firstn n ks)) by congruence. split; [rewrite L3, <- app_assoc; reflexivity|]. split.
      * intros [|j] k' Hj E; cbn in E; [inversion E; subst k'; exists v; rewrite L3, O1; apply answered_app, answered_last|]. apply (AN j); [lia|exact E].
      * destruct o; [lia|]. destruct O2. split; [lia|assumption].
    + destruct H1 as [(w2 & v & H1 & H2)|(e' & H1 & H2)]; [discriminate|]. inversion H2; subst e'. apply ask_inv in H1. destruct H1 as (S1 & L1 & O1). split; [exact S1|]. exists 1%nat. cbn. split; [lia|]. split; [exact L1|].
      split; [intros; lia|]. split; [lia|]. rewrite L1. apply raised_last. auto.
Qed.

(** all evaluations of breakers in the piece seg of the log, which starts after base, say no *)
Definition zeroSeg (base seg : list call) : Prop := forall p q k n t s v, seg = p ++ CEvaluate k n t s :: q -> env (base ++ p ++ [CEvaluate k n t s]) = Ok v -> v = 0.
Lemma cut_app {A} (c : A) a : forall b p q, a ++ b = p ++ c :: q -> (exists q', a = p ++ c :: q') \/ (exists p', p = a ++ p' /\ b = p' ++ c :: q).
Proof using Type.
  induction a as [|x a IH]; intros b p q E; [right; exists p; auto|]. destruct p as [|y p]; cbn in E; injection E as -> E; [left; exists a; reflexivity|].
  destruct (IH _ _ _ E) as [(q' & ->)|(p' & -> & ->)]; [left; exists q'; reflexivity|right; exists p'; auto].
Qed.
Lemma zeroSeg_app base a b : zeroSeg base a -> zeroSeg (base ++ a) b -> zeroSeg base (a ++ b).
Proof using Type.
  intros H1 H2 p q k n t s v E Ev. destruct (cut_app _ _ _ _ _ E) as [(q' & ->)|(p' & -> & ->)]; [eapply H1; [reflexivity|exact Ev]|]. eapply H2; [reflexivity|]. rewrite <- !app_assoc in *. exact Ev.
Qed.
Lemma zeroSeg_none base seg : (forall k n t s, ~ In (CEvaluate k n t s) seg) -> zeroSeg base seg.
Proof using Type. intros H p q k n t s v -> _. exfalso. apply (H k n t s). apply in_or_app. right. left. reflexivity. Qed.
Lemma breakers_inv step now ks : forall w w' o, breakers env step now ks w = (w', o) ->
  w_st w' = w_st w /\ exists seg, w_log w' = w_log w ++ seg /\
    (forall c, In c seg -> exists k, In k ks /\ (c = CInterval k \/ c = CEvaluate k step now (w_st w))) /\
    (o = Ok true -> exists k v, In k ks /\ v <> 0 /\ answered (w_log w') (CEvaluate k step now (w_st w)) (Ok v)) /\
    (o = Ok false -> zeroSeg (w_log w) seg) /\
    (forall e, o = Raise e -> raised (w_log w') e \/ (e = ZeroDivision /\ exists k pre, In k ks /\ env (pre ++ [CInterval k]) = Ok 0)) /\
    (forall iv, (forall pre k, In k ks -> env (pre ++ [CInterval k]) = Ok (iv k) /\ 1 <= iv k) ->
       (forall k, In (CEvaluate k step now (w_st w)) seg -> step mod iv k = 0) /\
       (o = Ok true -> exists k v, In k ks /\ step mod iv k = 0 /\ v <> 0 /\ answered (w_log w') (CEvaluate k step now (w_st w)) (Ok v)) /\
       (o = Ok false -> forall k, In k ks -> step mod iv k = 0 -> answered (w_log w') (CEvaluate k step now (w_st w)) (Ok 0))).
Proof using Type.
  induction ks as [|k ks IH]; intros w w' o H; cbn [breakers] in H.
  - inversion H; subst. split; [reflexivity|]. exists []. rewrite app_nil_r. split; [reflexivity|]. split; [intros c []|]. split; [discriminate|]. split; [intros _; apply zeroSeg_none; intros ? ? ? ? []|]. split; [intros e He; discriminate|].
    intros iv _. split; [intros k []|]. split; [discriminate|intros _ k []].
  - apply bind_inv in H. destruct H as [(w1 & iv0 & H1 & H)|(e & H1 & ->)]; apply ask_inv in H1; destruct H1 as (S1 & L1 & O1).
    2:{ split; [exact S1|]. exists [CInterval k]. split; [exact L1|]. split; [intros c [<-|[]]; exists k; split; [left; reflexivity|auto]|]. split; [discriminate|]. split; [discriminate|]. split; [intros e' He; inversion He; subst e'; left; rewrite L1; apply raised_last; auto|].
        intros iv HI. destruct (HI (w_log w) k (or_introl eq_refl)) as [HI1 _]. congruence. }
    apply bind_inv in H. destruct H as [(w2 & m & H1 & H)|(e & H1 & ->)]; unfold lift in H1; injection H1 as <- H3.
    2:{ split; [exact S1|]. exists [CInterval k]. split; [exact L1|]. split; [intros c [<-|[]]; exists k; split; [left; reflexivity|auto]|]. split; [discriminate|]. split; [discriminate|].
        assert (Z0 : iv0 = 0) by (unfold pymod in H3; destruct (Z.eqb_spec iv0 0); [assumption|discriminate]). split.
        - intros e' He. inversion He; subst e'. right. subst iv0. cbn in H3. split; [congruence|]. exists k, (w_log w). split; [left; reflexivity|auto].
        - intros iv HI. destruct (HI (w_log w) k (or_introl eq_refl)) as [X1 X2]. assert (iv k = iv0) by congruence. lia. }
    assert (EM : m = step mod iv0) by (unfold pymod in H3; destruct (iv0 =? 0); [discriminate|congruence]). clear H3. destruct (Z.eqb_spec m 0) as [M0|M0].
    + apply bind_inv in H. destruct H as [(w2 & s & H1 & H)|(e & H1 & ->)]; unfold get in H1; inversion H1; subst w2; clear H1. subst s.
      apply bind_inv in H. destruct H as [(w2 & b & H1 & H)|(e & H1 & ->)]; apply ask_inv in H1; destruct H1 as (S2 & L2 & O2); rewrite S1 in *.
      2:{ split; [congruence|]. exists [CInterval k; CEvaluate k step now (w_st w)]. assert (L3 : w_log w' = w_log w ++ [CInterval k; CEvaluate k step now (w_st w)]) by (rewrite L2, L1, <- app_assoc; reflexivity).
          split; [exact L3|]. split; [intros c [<-|[<-|[]]]; exists k; split; try (left; reflexivity); auto|]. split; [discriminate|]. split; [discriminate|]. split; [intros e' He; inversion He; subst e'; left; rewrite L2; apply raised_last; auto|].
          intros iv HI. destruct (HI (w_log w) k (or_introl eq_refl)) as [X1 X2]. assert (iv k = iv0) by congruence. split; [|split; [discriminate|discriminate]]. intros k' [E|[E|[]]]; [discriminate|]. inversion E; subst k'. congruence. }
      assert (L3 : w_log w2 = w_log w ++ [CInterval k; CEvaluate k step now (w_st w)]) by (rewrite L2, L1, <- app_assoc; reflexivity).
      assert (AK : answered (w_log w2) (CEvaluate k step now (w_st w)) (Ok b)) by (rewrite L2, O2; apply answered_last).
      destruct (Z.eqb_spec b 0) as [B0|B0].
      * subst b. apply IH in H. destruct H as (S3 & seg & L4 & C1 & C2 & CZ & C3 & C4). rewrite S2 in *. split; [exact S3|]. exists ([CInterval k; CEvaluate k step now (w_st w)] ++ seg). split; [rewrite L4, L3, <- app_assoc; reflexivity|].
        split; [|split; [|split; [|split]]].
        -- intros c Hc. apply in_app_or in Hc. destruct Hc as [[<-|[<-|[]]]|Hc]; [exists k; split; [left; reflexivity|auto]..|]. destruct (C1 c Hc) as (k' & K1 & K2). exists k'. split; [right; exact K1|exact K2].
        -- intros Ho. destruct (C2 Ho) as (k' & v & K1 & K2). exists k', v. split; [right; exact K1|exact K2].
        -- intros Ho. apply zeroSeg_app; [|rewrite <- L3; apply CZ; exact Ho]. intros p q k' n t s v E Ev. destruct p as [|c1 [|c2 p]]; [discriminate| |cbn in E; injection E as _ _ E; destruct p; discriminate]. cbn in E. injection E as E1 E2 E3 E4 E5 E6. subst. rewrite L1, <- app_assoc in O2. cbn in O2, Ev. congruence.
        -- intros e He. destruct (C3 e He) as [X|(X & k' & pre & K1 & K2)]; [left; exact X|right; split; [exact X|]; exists k', pre; split; [right; exact K1|exact K2]].
        -- intros iv HI. destruct (HI (w_log w) k (or_introl eq_refl)) as [X1 X2]. assert (EI : iv k = iv0) by congruence.
           destruct (C4 iv) as (D1 & D2 & D3); [intros pre k' Hk'; apply HI; right; exact Hk'|]. split; [|split].
           ++ intros k' Hk'. apply in_app_or in Hk'. destruct Hk' as [[E|[E|[]]]|Hk']; [discriminate| |apply D1; exact Hk']. inversion E; subst k'. congruence.
           ++ intros Ho. destruct (D2 Ho) as (k' & v & K1 & K2). exists k', v. split; [right; exact K1|exact K2].
           ++ intros Ho k' [<-|Hk'] HM; [|apply D3; assumption]. rewrite L4. apply answered_app. exact AK.
      * inversion H; subst. split; [exact S2|]. exists [CInterval k; CEvaluate k step now (w_st w)]. split; [exact L3|]. split; [intros c [<-|[<-|[]]]; exists k; split; try (left; reflexivity); auto|].
        split; [intros _; exists k, b; split; [left; reflexivity|auto]|]. split; [discriminate|]. split; [discriminate|]. intros iv HI. destruct (HI (w_log w) k (or_introl eq_refl)) as [X1 X2]. assert (EI : iv k = iv0) by congruence.
        split; [intros k' [E|[E|[]]]; [discriminate|]; inversion E; subst k'; congruence|]. split; [|discriminate]. intros _. exists k, b. split; [left; reflexivity|]. split; [congruence|]. auto.
    + apply IH in H. destruct H as (S3 & seg & L4 & C1 & C2 & CZ & C3 & C4). rewrite S1 in *. split; [exact S3|]. exists (CInterval k :: seg). split; [rewrite L4, L1, <- app_assoc; reflexivity|]. split; [|split; [|split; [|split]]].
      * intros c [<-|Hc]; [exists k; split; [left; reflexivity|auto]|]. destruct (C1 c Hc) as (k' & K1 & K2). exists k'. split; [right; exact K1|exact K2].
      * intros Ho. destruct (C2 Ho) as (k' & v & K1 & K2). exists k', v. split; [right; exact K1|exact K2].
      * intros Ho. change (CInterval k :: seg) with ([CInterval k] ++ seg). apply zeroSeg_app; [apply zeroSeg_none; intros ? ? ? ? [E|[]]; discriminate|]. rewrite <- L1. apply CZ. exact Ho.
      * intros e He. destruct (C3 e He) as [X|(X & k' & pre & K1 & K2)]; [left; exact X|right; split; [exact X|]; exists k', pre; split; [right; exact K1|exact K2]].
      * intros iv HI. destruct (HI (w_log w) k (or_introl eq_refl)) as [X1 X2]. assert (EI : iv k = iv0) by congruence.
        destruct (C4 iv) as (D1 & D2 & D3); [intros pre k' Hk'; apply HI; right; exact Hk'|]. split; [|split].
        -- intros k' [E|Hk']; [discriminate|apply D1; exact Hk'].
        -- intros Ho. destruct (D2 Ho) as (k' & v & K1 & K2). exists k', v. split; [right; exact K1|exact K2].
        -- intros Ho k' [<-|Hk'] HM; [congruence|apply D3; assumption].
Qed.

(** calls made within a pass *)
Definition inner (c : call) : Prop := match c with CFlush | CFinalize _ | CNew | CSetup _ _ _ => False | _ => True end.
Lemma inner_not c : inner c -> ~ isCleanup c /\ ~ isSetup c.
Proof using Type. intros H. split; [intros [->|[k ->]]|intros [->|(k & t & s & ->)]]; exact H. Qed.
(** projections of pieces of the log *)
Lemma frames_app (l m : list call) : frames (l ++ m) = frames l ++ frames m. Proof using Type. apply flat_map_app. Qed.
Lemma registered_app k (l m : list call) : registered k (l ++ m) = registered k l ++ registered k m. Proof using Type. apply flat_map_app. Qed.
Lemma states_app (l m : list call) : states (l ++ m) = states l ++ states m. Proof using Type. apply flat_map_app. Qed.
Lemma flat_map_nil {A C} (f : A -> list C) l : (forall a, In a l -> f a = []) -> flat_map f l = [].
Proof using Type. induction l as [|a l IH]; intros H; [reflexivity|]. cbn. rewrite (H a) by (left; reflexivity). apply IH. intros; apply H; right; assumption. Qed.
Lemma breaker_seg step now s ks (seg : list call) : (forall c, In c seg -> exists k, In k ks /\ (c = CInterval k \/ c = CEvaluate k step now s)) ->
  frames seg = [] /\ states seg = [] /\ (forall k, registered k seg = []) /\ (forall c, In c seg -> inner c) /\
  (forall k n t s', In (CEvaluate k n t s') seg -> In k ks /\ n = step /\ t = now /\ s' = s).
Proof using Type.
  intros H. split; [|split; [|split; [|split]]].
  - apply flat_map_nil. intros c Hc. destruct (H c Hc) as (k & _ & [-> | ->]); reflexivity.
  - apply flat_map_nil. intros c Hc. destruct (H c Hc) as (k & _ & [-> | ->]); reflexivity.
  - intros j. apply flat_map_nil. intros c Hc. destruct (H c Hc) as (k & _ & [-> | ->]); reflexivity.
  - intros c Hc. destruct (H c Hc) as (k & _ & [-> | ->]); exact I.
  - intros k n t s' Hc. destruct (H _ Hc) as (k' & Hk & [E|E]); [discriminate|]. inversion E; subst. auto.
Qed.
Lemma register_all step now s n k : registered k (map (fun j => CRegister j step now s : call) (zrange 0 (n - 1))) = if (0 <=? k) && (k <? n) then [(now, step, s)] else [].
Proof using Type.
  assert (G : forall l, NoDup l -> registered k (map (fun j => CRegister j step now s : call) l) = if in_dec Z.eq_dec k l then [(now, step, s)] else []).
  { induction l as [|a l IH]; intros ND; [reflexivity|]. inversion ND as [|? ? Hn ND']; subst. cbn [map]. unfold registered in *. cbn [flat_map]. rewrite (IH ND'). destruct (Z.eqb_spec a k) as [->|Hne].
    - destruct (in_dec Z.eq_dec k l); [contradiction|]. destruct (in_dec Z.eq_dec k (k :: l)) as [|N]; [reflexivity|]. exfalso. apply N. left; reflexivity.
    - cbn [app]. destruct (in_dec Z.eq_dec k l) as [I|I], (in_dec Z.eq_dec k (a :: l)) as [J|J]; try reflexivity; exfalso; [apply J; right; exact I|]. destruct J; contradiction. }
  rewrite G by apply NoDup_zrange. destruct (in_dec Z.eq_dec k (zrange 0 (n - 1))) as [I|I]; rewrite In_zrange in I; destruct (Z.leb_spec 0 k), (Z.ltb_spec k n); try reflexivity; lia.
Qed.
Lemma registers_seg step now s (ks : list Z) : let seg := map (fun j => CRegister j step now s : call) ks in
  frames seg = [] /\ states seg = [] /\ (forall c, In c seg -> inner c) /\ (forall k n t s', ~ In (CEvaluate k n t s') seg).
Proof using Type.
  cbn zeta. split; [|split; [|split]].
  - apply flat_map_nil. intros c Hc. apply in_map_iff in Hc. destruct Hc as (k & <- & _). reflexivity.
  - apply flat_map_nil. intros c Hc. apply in_map_iff in Hc. destruct Hc as (k & <- & _). reflexivity.
  - intros c Hc. apply in_map_iff in Hc. destruct Hc as (k & <- & _). exact I.
  - intros k n t s' Hc. apply in_map_iff in Hc. destruct Hc as (j & E & _). discriminate.
Qed.

(** why a pass of the loop ends with exception e; l is the log at that point *)
Definition cause (ct : control) (nB : Z) (s0 : St) (l : list call) (e : exn) : Prop :=
  (bk_avail B s0 = 0 /\ e = KmcError) \/ snd (bk_propagate B s0) = Raise e \/ snd (bk_single B (fst (bk_propagate B s0))) = Raise e \/ raised l e \/
  (ct_dtime ct = None /\ match ct_dump ct with Some n => n = 0 /\ e = ZeroDivision | None => e = OtherExn 0 end) \/ (ct_analyse ct = 0 /\ e = ZeroDivision) \/
  (exists k pre, 0 <= k < nB /\ env (pre ++ [CInterval k]) = Ok 0 /\ e = ZeroDivision).
(** the frame appended in a pass *)
Definition frameOf (ct : control) (step last : Z) (s0 : St) : list (Z * Z * St) :=
  let s1 := fst (bk_propagate B s0) in let s2 := bstep B s0 in
  match ct_dtime ct with
  | Some dt => if dt <=? bk_time B s1 - last then [(bk_time B s0, step - 1, s1)] else []
  | None => match ct_dump ct with Some n => if step mod n =? 0 then [(bk_time B s2, step, s2)] else [] | None => [] end
  end.
Definition lastOf (ct : control) (step ts last : Z) (s0 : St) : Z * Z :=
  let s1 := fst (bk_propagate B s0) in let s2 := bstep B s0 in
  match ct_dtime ct with
  | Some dt => if dt <=? bk_time B s1 - last then (ts + 1, (ts + 1) * dt) else (ts, last)
  | None => match ct_dump ct with Some n => if step mod n =? 0 then (ts, bk_time B s2) else (ts, last) | None => (ts, last) end
  end.
Record passed (ct : control) (traj : bool) (nA nB step ts last : Z) (w w' : world) (seg : list call) (r : bool * Z * Z) : Prop := {
  pa_avail : bk_avail B (w_st w) <> 0;
  pa_prop : snd (bk_propagate B (w_st w)) = Ok tt;
  pa_single : snd (bk_single B (fst (bk_propagate B (w_st w)))) = Ok tt;
  pa_st : w_st w' = bstep B (w_st w);
  pa_states : states seg = [bstep B (w_st w)];
  pa_frames : frames seg = if traj then frameOf ct step last (w_st w) else [];
  pa_dump : ct_dtime ct = None -> exists n, ct_dump ct = Some n /\ n <> 0;
  pa_regs : forall k, registered k seg = if (step mod ct_analyse ct =? 0) && ((0 <=? k) && (k <? nA)) then [(bk_time B (bstep B (w_st w)), step, bstep B (w_st w))] else [];
  pa_analyse : ct_analyse ct <> 0;
  pa_last : (snd (fst r), snd r) = lastOf ct step ts last (w_st w);
  pa_evals : forall k n t s, In (CEvaluate k n t s) seg -> 0 <= k < nB /\ n = step /\ t = bk_time B (bstep B (w_st w)) /\ s = bstep B (w_st w);
  pa_true : fst (fst r) = true -> exists k v, 0 <= k < nB /\ v <> 0 /\ answered (w_log w') (CEvaluate k step (bk_time B (bstep B (w_st w))) (bstep B (w_st w))) (Ok v);
  pa_zero : fst (fst r) = false -> zeroSeg (w_log w) seg;
  pa_iv : forall iv, (forall pre k, 0 <= k < nB -> env (pre ++ [CInterval k]) = Ok (iv k) /\ 1 <= iv k) ->
     (forall k n t s, In (CEvaluate k n t s) seg -> step mod iv k = 0) /\
     (fst (fst r) = true -> exists k v, 0 <= k < nB /\ step mod iv k = 0 /\ v <> 0 /\ answered (w_log w') (CEvaluate k step (bk_time B (bstep B (w_st w))) (bstep B (w_st w))) (Ok v)) /\
     (fst (fst r) = false -> forall k, 0 <= k < nB -> step mod iv k = 0 -> answered (w_log w') (CEvaluate k step (bk_time B (bstep B (w_st w))) (bstep B (w_st w))) (Ok 0)) }.

Definition evalsOK (nB step : Z) (s0 : St) (seg : list call) : Prop :=
  (forall k n t s, In (CEvaluate k n t s) seg -> 0 <= k < nB /\ n = step /\ t = bk_time B (bstep B s0) /\ s = bstep B s0) /\
  (forall iv, (forall pre k, 0 <= k < nB -> env (pre ++ [CInterval k]) = Ok (iv k) /\ 1 <= iv k) -> forall k n t s, In (CEvaluate k n t s) seg -> step mod iv k = 0).
Definition noEval (seg : list call) : Prop := forall k n t s, ~ In (CEvaluate k n t s) seg.
Lemma noEval_ok nB step s0 seg : noEval seg -> evalsOK nB step s0 seg.
Proof using Type. intros H. split; [intros k n t s Hc|intros iv _ k n t s Hc]; exfalso; exact (H _ _ _ _ Hc). Qed.
Lemma evalsOK_app nB step s0 a b : noEval a -> evalsOK nB step s0 b -> evalsOK nB step s0 (a ++ b).
Proof using Type.
  intros H [H1 H2]. split; [intros k n t s Hc|intros iv HI k n t s Hc]; apply in_app_or in Hc; destruct Hc as [Hc|Hc]; try (exfalso; exact (H _ _ _ _ Hc)); [apply H1; exact Hc|eapply H2; eauto].
Qed.
Lemma noEval_app a b : noEval a -> noEval b -> noEval (a ++ b).
Proof using Type. intros H1 H2 k n t s Hc. apply in_app_or in Hc. destruct Hc as [Hc|Hc]; [exact (H1 _ _ _ _ Hc)|exact (H2 _ _ _ _ Hc)]. Qed.
Lemma inner_app a b : (forall c : call, In c a -> inner c) -> (forall c, In c b -> inner c) -> forall c, In c (a ++ b) -> inner c.
Proof using Type. intros H1 H2 c Hc. apply in_app_or in Hc. destruct Hc; auto. Qed.

(** the part of a pass up to and including singleStep, and the step-based dump *)
Lemma iteration_inv ct traj nA nB step ts last w w' o : iteration B env ct traj nA nB step ts last w = (w', o) ->
  exists seg, w_log w' = w_log w ++ seg /\ (forall c, In c seg -> inner c) /\ evalsOK nB step (w_st w) seg /\
    match o with
    | Ok r => passed ct traj nA nB step ts last w w' seg r
    | Raise e => cause ct nB (w_st w) (w_log w') e /\ (states seg = [] \/ states seg = [bstep B (w_st w)])
    end.
Proof using Type.
  intros H. set (s0 := w_st w) in *. unfold iteration in H.
  apply bind_inv in H. destruct H as [(w0 & s & H1 & H)|(e & H1 & ->)]; unfold get in H1; [|discriminate]. injection H1 as <- <-. fold s0 in H.
  destruct (Z.eqb_spec (bk_avail B s0) 0) as [A0|A0].
  { unfold throw in H. injection H as <- <-. exists []. rewrite app_nil_r. split; [reflexivity|]. split; [intros c []|]. split; [apply noEval_ok; intros k n t s []|]. split; [left; auto|left; reflexivity]. }
  cbn zeta in H. apply bind_inv in H. destruct H as [(w1 & u & H1 & H)|(e & H1 & ->)]; unfold propagate in H1; fold s0 in H1; destruct (bk_propagate B s0) as [s1 o1] eqn:EP.
  2:{ injection H1 as <- ->. cbn [w_log]. exists [CPropagate]. split; [reflexivity|]. split; [intros c [<-|[]]; exact I|]. split; [apply noEval_ok; intros k n t s [E|[]]; discriminate|]. split; [right; left; rewrite EP; reflexivity|left; reflexivity]. }
  injection H1 as <- ->. destruct u.
  apply bind_inv in H. destruct H as [(w0 & s & H1 & H)|(e & H1 & ->)]; unfold get in H1; [|discriminate]. injection H1 as <- <-. cbn [w_st] in H.
  (* time-based dump *)
  set (d1 := if traj then match ct_dtime ct with Some dt => if dt <=? bk_time B s1 - last then [CAppend (bk_time B s0) (step - 1) s1 : call] else [] | None => [] end else []).
  set (tl0 := match ct_dtime ct with Some dt => if dt <=? bk_time B s1 - last then (ts + 1, (ts + 1) * dt) else (ts, last) | None => (ts, last) end).
  apply bind_inv in H. destruct H as [(w2 & tl & H1 & H)|(e & H1 & ->)].
  2:{ destruct (ct_dtime ct) as [dt|]; [|discriminate]. destruct (dt <=? bk_time B s1 - last); [|discriminate]. apply bind_inv in H1. destruct H1 as [(wa & a & H1 & H2)|(e' & H1 & H2)]; [discriminate|]. injection H2 as <-. destruct traj; [|discriminate].
      apply bind_inv in H1. destruct H1 as [(wa & a & H1 & H2)|(e' & H1 & H2)]; [discriminate|]. injection H2 as <-. apply ask_inv in H1. destruct H1 as (S1 & L1 & O1). cbn [w_log w_st] in *.
      exists [CPropagate; CAppend (bk_time B s0) (step - 1) s1]. split; [rewrite L1, <- app_assoc; reflexivity|]. split; [intros c [<-|[<-|[]]]; exact I|]. split; [apply noEval_ok; intros k n t s [E|[E|[]]]; discriminate|].
      split; [right; right; right; left; rewrite L1; apply raised_last; auto|left; reflexivity]. }
  assert (X1 : w_st w2 = s1 /\ w_log w2 = w_log w ++ CPropagate :: d1 /\ tl = tl0).
  { unfold d1, tl0. destruct (ct_dtime ct) as [dt|].
    - destruct (dt <=? bk_time B s1 - last).
      + apply bind_inv in H1. destruct H1 as [(wa & a & H1 & H2)|(e' & H1 & H2)]; [|discriminate]. injection H2 as <- <-. destruct traj; [|injection H1 as <- _; auto].
        apply bind_inv in H1. destruct H1 as [(wb & b & H1 & H2)|(e' & H1 & H2)]; [|discriminate]. injection H2 as <- _. apply ask_inv in H1. destruct H1 as (S1 & L1 & O1). cbn [w_log w_st] in *. split; [exact S1|]. split; [rewrite L1, <- app_assoc; reflexivity|reflexivity].
      + injection H1 as <- <-. destruct traj; auto.
    - injection H1 as <- <-. destruct traj; auto. }
  destruct X1 as (S2 & L2 & ->). clear H1.
  (* singleStep *)
  assert (FD : forall c, In c d1 -> inner c) by (intros c; unfold d1; destruct traj; [|intros []]; destruct (ct_dtime ct); [|intros []]; destruct (_ <=? _); [intros [<-|[]]; exact I|intros []]).
  assert (ND : noEval (CPropagate :: d1)) by (intros k n t s [E|Hc]; [discriminate|]; revert Hc; unfold d1; destruct traj; [|intros []]; destruct (ct_dtime ct); [|intros []]; destruct (_ <=? _); [intros [E|[]]; discriminate|intros []]).
  assert (SD : states d1 = []) by (unfold d1; destruct traj; [|reflexivity]; destruct (ct_dtime ct); [|reflexivity]; destruct (_ <=? _); reflexivity).
  assert (RD : forall k, registered k d1 = []) by (intros k; unfold d1; destruct traj; [|reflexivity]; destruct (ct_dtime ct); [|reflexivity]; destruct (_ <=? _); reflexivity).
  assert (EB : bstep B s0 = fst (bk_single B s1)) by (unfold bstep; rewrite EP; reflexivity).
  apply bind_inv in H. destruct H as [(w3 & u & H1 & H)|(e & H1 & ->)]; unfold single in H1; rewrite S2 in H1; destruct (bk_single B s1) as [s2 o2] eqn:ES; cbn [fst] in EB.
  2:{ injection H1 as <- ->. cbn [w_log]. exists ((CPropagate :: d1) ++ [CSingle s2]). split; [rewrite L2, <- app_assoc; reflexivity|]. split; [apply inner_app; [intros c [<-|Hc]; [exact I|auto]|intros c [<-|[]]; exact I]|].
      split; [apply evalsOK_app; [exact ND|apply noEval_ok; intros k n t s [E|[]]; discriminate]|]. split; [right; right; left; rewrite EP; cbn [fst]; rewrite ES; reflexivity|].
      right. rewrite states_app. change (states (CPropagate :: d1)) with (states d1). rewrite SD, EB. reflexivity. }
  injection H1 as <- ->. destruct u. apply bind_inv in H. destruct H as [(w0 & s & H1 & H)|(e & H1 & ->)]; unfold get in H1; [|discriminate]. injection H1 as <- <-. cbn [w_st] in H.
  set (pre := (CPropagate :: d1) ++ [CSingle s2]). assert (IP : forall c, In c pre -> inner c) by (apply inner_app; [intros c [<-|Hc]; [exact I|auto]|intros c [<-|[]]; exact I]).
  assert (NP : noEval pre) by (apply noEval_app; [exact ND|intros k n t s [E|[]]; discriminate]).
  assert (SP : states pre = [bstep B s0]) by (unfold pre; rewrite states_app; change (states (CPropagate :: d1)) with (states d1); rewrite SD, EB; reflexivity).
  assert (RP : forall k, registered k pre = []) by (intros k; unfold pre; rewrite registered_app; change (registered k (CPropagate :: d1)) with (registered k d1); rewrite RD; reflexivity).
  assert (FP : frames pre = frames d1) by (unfold pre; rewrite frames_app; change (frames (CPropagate :: d1)) with (frames d1); cbn; apply app_nil_r).
  set (w3 := mkWorld s2 (w_log w2 ++ [CSingle s2])) in *. assert (L3 : w_log w3 = w_log w ++ pre) by (unfold w3, pre; cbn [w_log]; rewrite L2, <- app_assoc; reflexivity). assert (S3 : w_st w3 = s2) by reflexivity. clearbody w3.
  (* step-based dump *)
  set (d2 := if traj then match ct_dtime ct with Some _ => [] | None => match ct_dump ct with Some n => if step mod n =? 0 then [CAppend (bk_time B s2) step s2 : call] else [] | None => [] end end else []).
  set (last2 := match ct_dtime ct with Some _ => snd tl0 | None => match ct_dump ct with Some n => if step mod n =? 0 then bk_time B s2 else snd tl0 | None => snd tl0 end end).
  assert (FD2 : forall c, In c d2 -> inner c) by (intros c; unfold d2; destruct traj; [|intros []]; destruct (ct_dtime ct); [intros []|]; destruct (ct_dump ct); [|intros []]; destruct (_ =? _); [intros [<-|[]]; exact I|intros []]).
  assert (ND2 : noEval d2) by (intros k n t s; unfold d2; destruct traj; [|intros []]; destruct (ct_dtime ct); [intros []|]; destruct (ct_dump ct); [|intros []]; destruct (_ =? _); [intros [E|[]]; discriminate|intros []]).
  assert (SD2 : states d2 = []) by (unfold d2; destruct traj; [|reflexivity]; destruct (ct_dtime ct); [reflexivity|]; destruct (ct_dump ct); [|reflexivity]; destruct (_ =? _); reflexivity).
  assert (RD2 : forall k, registered k d2 = []) by (intros k; unfold d2; destruct traj; [|reflexivity]; destruct (ct_dtime ct); [reflexivity|]; destruct (ct_dump ct); [|reflexivity]; destruct (_ =? _); reflexivity).
  apply bind_inv in H. destruct H as [(w4 & l2 & H1 & H)|(e & H1 & ->)].
  2:{ destruct (ct_dtime ct) eqn:ED; [discriminate|]. apply bind_inv in H1. destruct H1 as [(wa & m & H1 & H2)|(e' & H1 & H2)]; unfold lift in H1.
      - injection H1 as <- EM. destruct (ct_dump ct) as [n|] eqn:EN; [|discriminate]. unfold pymod in EM. destruct (Z.eqb_spec n 0); [discriminate|]. injection EM as <-. destruct (step mod n =? 0) eqn:EZ; [|discriminate]. destruct traj; [|discriminate].
        apply bind_inv in H2. destruct H2 as [(wa & a & H1 & H2)|(e' & H1 & H2)]; [discriminate|]. injection H2 as <-. apply ask_inv in H1. destruct H1 as (S1 & L1 & O1).
        exists (pre ++ d2). unfold d2. split; [rewrite L1, L3, <- app_assoc; reflexivity|]. split; [apply inner_app; assumption|]. split; [apply noEval_ok, noEval_app; assumption|].
        split; [right; right; right; left; rewrite L1; apply raised_last; auto|]. right. fold d2. rewrite states_app, SP, SD2. reflexivity.
      - injection H2 as <-. injection H1 as <- EM. exists pre. split; [exact L3|]. split; [exact IP|]. split; [apply noEval_ok; exact NP|]. split; [|right; exact SP].
        right. right. right. right. left. split; [exact ED|]. destruct (ct_dump ct) as [n|]; [|congruence]. unfold pymod in EM. destruct (Z.eqb_spec n 0); [|discriminate]. split; [assumption|congruence]. }
  assert (X2 : w_st w4 = s2 /\ w_log w4 = w_log w ++ pre ++ d2 /\ l2 = last2 /\ (ct_dtime ct = None -> exists n, ct_dump ct = Some n /\ n <> 0)).
  { unfold d2, last2. destruct (ct_dtime ct) eqn:ED.
    - injection H1 as <- <-. split; [exact S3|]. split; [destruct traj; rewrite app_nil_r; exact L3|]. split; [reflexivity|discriminate].
    - apply bind_inv in H1. destruct H1 as [(wa & m & H1 & H2)|(e' & H1 & H2)]; [|discriminate]. unfold lift in H1. injection H1 as <- EM. destruct (ct_dump ct) as [n|] eqn:EN; [|discriminate].
      unfold pymod in EM. destruct (Z.eqb_spec n 0); [discriminate|]. injection EM as <-. destruct (step mod n =? 0) eqn:EZ.
      + destruct traj.
        * apply bind_inv in H2. destruct H2 as [(wa & a & H1 & H2)|(e' & H1 & H2)]; [|discriminate]. injection H2 as <- <-. apply ask_inv in H1. destruct H1 as (S1 & L1 & O1).
          split; [congruence|]. split; [rewrite L1, L3, <- app_assoc; reflexivity|]. split; [reflexivity|eauto].
        * injection H2 as <- <-. split; [exact S3|]. split; [rewrite app_nil_r; exact L3|]. split; [reflexivity|eauto].
      + injection H2 as <- <-. split; [exact S3|]. split; [destruct traj; rewrite app_nil_r; exact L3|]. split; [reflexivity|eauto]. }
  destruct X2 as (S4 & L4 & -> & DN). clear H1.
  set (pre2 := pre ++ d2) in *. assert (IP2 : forall c, In c pre2 -> inner c) by (apply inner_app; assumption). assert (NP2 : noEval pre2) by (apply noEval_app; assumption).
  assert (SP2 : states pre2 = [bstep B s0]) by (unfold pre2; rewrite states_app, SP, SD2; reflexivity). assert (RP2 : forall k, registered k pre2 = []) by (intros k; unfold pre2; rewrite registered_app, RP, RD2; reflexivity).
  (* analysis *)
  apply bind_inv in H. destruct H as [(w5 & m & H1 & H)|(e & H1 & ->)]; unfold lift in H1; injection H1 as <- EM; unfold pymod in EM; destruct (Z.eqb_spec (ct_analyse ct) 0) as [EA|EA]; try discriminate.
  2:{ exists pre2. split; [exact L4|]. split; [exact IP2|]. split; [apply noEval_ok; exact NP2|]. split; [|right; exact SP2]. right. right. right. right. right. left. split; [exact EA|congruence]. }
  injection EM as <-. set (d3 := if step mod ct_analyse ct =? 0 then map (fun k => CRegister k step (bk_time B s2) s2 : call) (zrange 0 (nA - 1)) else []).
  apply bind_inv in H. destruct H as [(w5 & u & H1 & H)|(e & H1 & ->)].
  2:{ destruct (step mod ct_analyse ct =? 0) eqn:EZ; [|discriminate]. apply (each_inv (fun k => CRegister k step (bk_time B s2) s2)) in H1. destruct H1 as (S5 & n & N1 & L5 & _ & N2 & O5).
      destruct (registers_seg step (bk_time B s2) s2 (firstn n (zrange 0 (nA - 1)))) as (R1 & R2 & R3 & R4).
      exists (pre2 ++ map (fun k => CRegister k step (bk_time B s2) s2) (firstn n (zrange 0 (nA - 1)))). split; [rewrite L5, L4, <- app_assoc; reflexivity|]. split; [apply inner_app; assumption|].
      split; [apply noEval_ok, noEval_app; assumption|]. split; [right; right; right; left; exact O5|]. right. rewrite states_app, SP2, R2. reflexivity. }
  assert (X3 : w_st w5 = s2 /\ w_log w5 = w_log w ++ pre2 ++ d3).
  { unfold d3. destruct (step mod ct_analyse ct =? 0) eqn:EZ.
    - apply (each_inv (fun k => CRegister k step (bk_time B s2) s2)) in H1. destruct H1 as (S5 & n & N1 & L5 & _ & ->). rewrite firstn_all in L5. split; [congruence|]. rewrite L5, L4, <- app_assoc. reflexivity.
    - injection H1 as <- _. split; [exact S4|]. rewrite app_nil_r. exact L4. }
  destruct X3 as (S5 & L5). clear H1 u.
  assert (D3 : frames d3 = [] /\ states d3 = [] /\ (forall c, In c d3 -> inner c) /\ noEval d3).
  { unfold d3. destruct (_ =? 0); [apply registers_seg|]. split; [reflexivity|]. split; [reflexivity|]. split; [intros c []|intros k n t s []]. }
  destruct D3 as (D31 & D32 & D33 & D34).
  assert (RD3 : forall k, registered k d3 = if (step mod ct_analyse ct =? 0) && ((0 <=? k) && (k <? nA)) then [(bk_time B s2, step, s2)] else []).
  { intros k. unfold d3. destruct (step mod ct_analyse ct =? 0); [apply register_all|reflexivity]. }
  (* breakers *)
  assert (KS : forall k, In k (zrange 0 (nB - 1)) <-> 0 <= k < nB) by (intros k; rewrite In_zrange; lia).
  assert (GB : forall o', breakers env step (bk_time B s2) (zrange 0 (nB - 1)) w5 = (w', o') -> exists seg, w_log w' = w_log w ++ (pre2 ++ d3) ++ seg /\ w_st w' = s2 /\
     (forall c, In c ((pre2 ++ d3) ++ seg) -> inner c) /\ evalsOK nB step s0 ((pre2 ++ d3) ++ seg) /\ states ((pre2 ++ d3) ++ seg) = [bstep B s0] /\ frames ((pre2 ++ d3) ++ seg) = frames pre2 /\
     (forall k, registered k ((pre2 ++ d3) ++ seg) = registered k d3) /\
     (o' = Ok false -> zeroSeg (w_log w) ((pre2 ++ d3) ++ seg)) /\
     (o' = Ok true -> exists k v, 0 <= k < nB /\ v <> 0 /\ answered (w_log w') (CEvaluate k step (bk_time B s2) s2) (Ok v)) /\
     (forall e, o' = Raise e -> raised (w_log w') e \/ (e = ZeroDivision /\ exists k pre, 0 <= k < nB /\ env (pre ++ [CInterval k]) = Ok 0)) /\
     (forall iv, (forall pre k, 0 <= k < nB -> env (pre ++ [CInterval k]) = Ok (iv k) /\ 1 <= iv k) ->
       (o' = Ok true -> exists k v, 0 <= k < nB /\ step mod iv k = 0 /\ v <> 0 /\ answered (w_log w') (CEvaluate k step (bk_time B s2) s2) (Ok v)) /\
       (o' = Ok false -> forall k, 0 <= k < nB -> step mod iv k = 0 -> answered (w_log w') (CEvaluate k step (bk_time B s2) s2) (Ok 0)))).
  { intros o' HB. apply breakers_inv in HB. destruct HB as (S6 & seg & L6 & C1 & C2 & CZ & C3 & C4). rewrite S5 in *. destruct (breaker_seg _ _ _ _ _ C1) as (G1 & G2 & G3 & G4 & G5).
    exists seg. split; [rewrite L6, L5, <- !app_assoc; reflexivity|]. split; [exact S6|]. split; [apply inner_app; [apply inner_app; assumption|exact G4]|]. split; [|split; [|split; [|split; [|split; [|split; [|split]]]]]].
    - apply evalsOK_app; [apply noEval_app; assumption|]. split.
      + intros k n t s Hc. destruct (G5 _ _ _ _ Hc) as (K1 & K2 & K3 & K4). apply KS in K1. rewrite EB. auto.
      + intros iv HI k n t s Hc. destruct (G5 _ _ _ _ Hc) as (K1 & K2 & K3 & K4). destruct (C4 iv) as (D1 & _); [intros p k' Hk'; apply HI, KS; exact Hk'|]. apply D1. subst. exact Hc.
    - rewrite !states_app, SP2, D32, G2. reflexivity.
    - rewrite !frames_app, D31, G1, !app_nil_r. reflexivity.
    - intros k. rewrite !registered_app, RP2, G3, app_nil_r. reflexivity.
    - intros Ho. apply zeroSeg_app; [apply zeroSeg_none; apply noEval_app; assumption|]. rewrite <- L5. apply CZ. exact Ho.
    - intros Ho. destruct (C2 Ho) as (k & v & K1 & K2). apply KS in K1. eauto.
    - intros e He. destruct (C3 e He) as [X|(X & k & p & K1 & K2)]; [left; exact X|right; split; [exact X|]; exists k, p; apply KS in K1; auto].
    - intros iv HI. destruct (C4 iv) as (_ & D2 & D3); [intros p k' Hk'; apply HI, KS; exact Hk'|]. split.
      + intros Ho. destruct (D2 Ho) as (k & v & K1 & K2). apply KS in K1. eauto.
      + intros Ho k Hk. apply D3; [exact Ho|apply KS; exact Hk]. }
  apply bind_inv in H. destruct H as [(w6 & b & H1 & H)|(e & H1 & ->)].
  - injection H as <- <-. destruct (GB _ H1) as (seg & L6 & S6 & I6 & E6 & ST6 & F6 & R6 & ZZ6 & T6 & _ & V6). exists ((pre2 ++ d3) ++ seg). split; [exact L6|]. split; [exact I6|]. split; [exact E6|].
    constructor; fold s0; cbn [fst snd]; rewrite ?EB, ?EP; cbn [fst snd]; rewrite ?ES; cbn [fst snd]; auto.
    + congruence.
    + rewrite F6. unfold pre2. rewrite frames_app, FP. unfold d1, d2, frameOf. rewrite EB, EP. cbn [fst]. destruct traj; [|reflexivity]. destruct (ct_dtime ct) as [dt|]; [destruct (dt <=? _); reflexivity|].
      destruct (ct_dump ct) as [n|]; [|reflexivity]. destruct (step mod n =? 0); reflexivity.
    + intros k. rewrite R6. apply RD3.
    + unfold lastOf, last2, tl0. rewrite EB, EP. cbn [fst]. destruct (ct_dtime ct) as [dt|]; [destruct (dt <=? _); reflexivity|]. destruct (ct_dump ct) as [n|]; [|reflexivity]. destruct (step mod n =? 0); reflexivity.
    + destruct E6 as [E6 _]. rewrite EB in E6. exact E6.
    + intros ->. auto.
    + intros ->. auto.
    + intros iv HI. destruct E6 as [_ E6]. split; [apply E6; exact HI|]. destruct (V6 iv HI) as [V1 V2]. split; [intros ->; auto|intros ->; auto].
  - destruct (GB _ H1) as (seg & L6 & S6 & I6 & E6 & ST6 & F6 & R6 & ZZ6 & T6 & Z6 & V6). exists ((pre2 ++ d3) ++ seg). split; [exact L6|]. split; [exact I6|]. split; [exact E6|]. split; [|right; exact ST6].
    destruct (Z6 e eq_refl) as [X|(X & k & p & K1 & K2)]; [right; right; right; left; exact X|]. right. right. right. right. right. right. exists k, p. auto.
Qed.
End Loop.
