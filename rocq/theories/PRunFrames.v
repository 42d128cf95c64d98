(** The frames of a run with dump_interval, however the run ends. *)
From Verif Require Import PBase SRun PRunLoop PRunAll.
Open Scope Z_scope.
Open Scope list_scope.

Section Frames.
Context {St : Type} (B : @backend St) (env : list (@call St) -> outcome Z).
Notation call := (@call St).
Notation atStep := (atStep B).
Definition fine (s : St) : Prop := bk_avail B s <> 0 /\ snd (bk_propagate B s) = Ok tt /\ snd (bk_single B (fst (bk_propagate B s))) = Ok tt.

(** a pass that ends with an exception has appended the frame that was due, or none *)
Lemma iteration_raise ct nA nB step ts last w w' e d : ct_dtime ct = None -> ct_dump ct = Some d -> d <> 0 -> iteration B env ct true nA nB step ts last w = (w', Raise e) ->
  exists seg, w_log w' = w_log w ++ seg /\ (frames seg = [] \/ (fine (w_st w) /\ step mod d = 0 /\ frames seg = [(bk_time B (bstep B (w_st w)), step, bstep B (w_st w))])).
Proof using Type.
  intros ED EDu Hd H. set (s0 := w_st w) in *. unfold iteration in H. rewrite ED, EDu in H.
  apply bind_inv in H. destruct H as [(w0 & s & H1 & H)|(e' & H1 & _)]; unfold get in H1; [|discriminate]. injection H1 as <- <-. fold s0 in H.
  destruct (Z.eqb_spec (bk_avail B s0) 0) as [A0|A0]; [unfold throw in H; injection H as <- _; exists []; rewrite app_nil_r; auto|].
  cbn zeta in H. apply bind_inv in H. destruct H as [(w1 & u & H1 & H)|(e' & H1 & _)]; unfold propagate in H1; fold s0 in H1; destruct (bk_propagate B s0) as [s1 o1] eqn:EP; [|injection H1 as <- _; exists [CPropagate]; auto].
  injection H1 as <- ->. destruct u. apply bind_inv in H. destruct H as [(w0 & s & H1 & H)|(e' & H1 & _)]; unfold get in H1; [|discriminate]. injection H1 as <- <-.
  apply bind_inv in H. destruct H as [(w0 & tl & H1 & H)|(e' & H1 & _)]; unfold ret in H1; [|discriminate]. injection H1 as <- <-.
  apply bind_inv in H. destruct H as [(w3 & u & H1 & H)|(e' & H1 & _)]; unfold single in H1; cbn [w_st w_log] in H1; destruct (bk_single B s1) as [s2 o2] eqn:ES; [|injection H1 as <- _; exists [CPropagate; CSingle s2]; cbn [w_log]; rewrite <- app_assoc; auto].
  injection H1 as <- ->. destruct u. apply bind_inv in H. destruct H as [(w0 & s & H1 & H)|(e' & H1 & _)]; unfold get in H1; [|discriminate]. injection H1 as <- <-. cbn [w_st] in H.
  assert (FI : fine s0) by (unfold fine; rewrite EP; cbn [fst snd]; rewrite ES; auto). assert (EB : bstep B s0 = s2) by (unfold bstep; rewrite EP; cbn [fst]; rewrite ES; reflexivity). rewrite EB.
  set (F := if step mod d =? 0 then [CAppend (bk_time B s2) step s2 : call] else []). set (w4 := mkWorld s2 (w_log w ++ [CPropagate; CSingle s2])). replace (mkWorld s2 ((w_log w ++ [CPropagate]) ++ [CSingle s2])) with w4 in H by (unfold w4; rewrite <- app_assoc; reflexivity).
  assert (G : forall seg rest, seg = [CPropagate; CSingle s2] ++ F ++ rest -> frames rest = [] -> frames seg = [] \/ (fine s0 /\ step mod d = 0 /\ frames seg = [(bk_time B s2, step, s2)])).
  { intros seg rest -> Hr. rewrite !frames_app, Hr, app_nil_r. unfold F. destruct (Z.eqb_spec (step mod d) 0); [right|left; reflexivity]. split; [exact FI|]. split; [assumption|reflexivity]. }
  apply bind_inv in H. destruct H as [(w5 & l2 & H1 & H)|(e' & H1 & _)]; apply bind_inv in H1.
  2:{ destruct H1 as [(wa & m & H1 & H2)|(e2 & H1 & _)]; unfold lift, pymod in H1; destruct (Z.eqb_spec d 0) as [|_]; try contradiction; [|discriminate]. injection H1 as <- <-. destruct (Z.eqb_spec (step mod d) 0) as [EZ|EZ]; [|discriminate].
      apply bind_inv in H2. destruct H2 as [(wa & a & H1 & H2)|(e2 & H1 & H2)]; [discriminate|]. apply ask_inv in H1. destruct H1 as (_ & L1 & _). unfold w4 in L1. cbn [w_log] in L1.
      exists ([CPropagate; CSingle s2] ++ F ++ []). split; [rewrite L1; unfold F; rewrite <- app_assoc; reflexivity|]. eapply G; reflexivity. }
  destruct H1 as [(wa & m & H1 & H2)|(e2 & H1 & H2)]; [|discriminate]. unfold lift, pymod in H1. destruct (Z.eqb_spec d 0) as [|_]; [contradiction|]. injection H1 as <- <-.
  assert (X : w_st w5 = s2 /\ w_log w5 = w_log w ++ [CPropagate; CSingle s2] ++ F).
  { unfold F. destruct (Z.eqb_spec (step mod d) 0) as [EZ|EZ].
    - apply bind_inv in H2. destruct H2 as [(wa & a & H1 & H2)|(e2 & H1 & H2)]; [|discriminate]. injection H2 as <- _. apply ask_inv in H1. destruct H1 as (S1 & L1 & _). unfold w4 in *. cbn [w_log w_st] in *. split; [exact S1|]. rewrite L1, <- app_assoc. reflexivity.
    - injection H2 as <- _. rewrite app_nil_r. split; reflexivity. }
  destruct X as (S5 & L5). clear H2.
  apply bind_inv in H. destruct H as [(w6 & m & H1 & H)|(e' & H1 & _)]; unfold lift in H1; injection H1 as <- EM.
  2:{ exists ([CPropagate; CSingle s2] ++ F ++ []). split; [rewrite L5, app_nil_r; reflexivity|]. eapply G; reflexivity. }
  apply bind_inv in H. destruct H as [(w6 & u & H1 & H)|(e' & H1 & _)].
  2:{ destruct (m =? 0); [|discriminate]. apply (each_inv env (fun k => CRegister k step (bk_time B s2) s2)) in H1. destruct H1 as (_ & n & _ & L6 & _).
      destruct (registers_seg step (bk_time B s2) s2 (firstn n (zrange 0 (nA - 1)))) as (R1 & _). exists ([CPropagate; CSingle s2] ++ F ++ map (fun k => CRegister k step (bk_time B s2) s2) (firstn n (zrange 0 (nA - 1)))).
      split; [rewrite L6, L5, <- !app_assoc; reflexivity|]. eapply G; [reflexivity|exact R1]. }
  assert (X : exists r3, w_st w6 = s2 /\ w_log w6 = w_log w ++ ([CPropagate; CSingle s2] ++ F) ++ r3 /\ frames r3 = []).
  { destruct (m =? 0).
    - apply (each_inv env (fun k => CRegister k step (bk_time B s2) s2)) in H1. destruct H1 as (S6 & n & _ & L6 & _). destruct (registers_seg step (bk_time B s2) s2 (firstn n (zrange 0 (nA - 1)))) as (R1 & _).
      eexists. split; [congruence|]. split; [rewrite L6, L5, <- app_assoc; reflexivity|exact R1].
    - injection H1 as <- _. exists []. split; [exact S5|]. rewrite app_nil_r. split; [exact L5|reflexivity]. }
  destruct X as (r3 & S6 & L6 & R3). apply bind_inv in H. destruct H as [(w7 & b & H2 & H)|(e' & H2 & _)]; [discriminate|]. apply breakers_inv in H2. destruct H2 as (_ & seg & L7 & C1 & _). destruct (breaker_seg _ _ _ _ _ C1) as (G1 & _).
  exists ([CPropagate; CSingle s2] ++ F ++ r3 ++ seg). split; [rewrite L7, L6, <- !app_assoc; reflexivity|]. eapply G; [reflexivity|]. rewrite frames_app, R3, G1. reflexivity.
Qed.

(** the loop: m passes have got as far as the frame, and nothing else has been appended *)
Lemma loop_frames ct nA nB s0 d : ct_dtime ct = None -> ct_dump ct = Some d -> d <> 0 -> forall fuel step ts last w w' o, 0 <= step -> w_st w = stateAt B s0 step -> loop B env ct true nA nB fuel step ts last w = (w', o) ->
  exists seg m, step <= m <= step + Z.of_nat fuel /\ w_log w' = w_log w ++ seg /\ (forall c, In c seg -> inner c) /\ frames seg = map (atStep s0) (filter (fun k => k mod d =? 0) (zrange (step + 1) m)) /\
    (forall j, step <= j < m -> fine (stateAt B s0 j)) /\
    match o with Ok _ => w_st w' = stateAt B s0 m /\ states seg = map (stateAt B s0) (zrange (step + 1) m) | Raise e => exists j, step <= j < step + Z.of_nat fuel /\ (m = j \/ m = j + 1) /\ cause B env ct nB (stateAt B s0 j) (w_log w') e end.
Proof using Type.
  intros ED EDu Hd. induction fuel as [|fuel IH]; intros step ts last w w' o Hs Hw H.
  - cbn in H. injection H as <- <-. exists [], step. rewrite app_nil_r, (zrange_empty (step + 1)) by lia. split; [lia|]. split; [reflexivity|]. split; [intros c []|]. split; [reflexivity|]. split; [intros; lia|]. split; [exact Hw|reflexivity].
  - cbn [loop] in H. apply bind_inv in H. destruct H as [(w1 & r & H1 & H)|(e & H1 & ->)]; pose proof H1 as HI1; apply iteration_inv in H1; destruct H1 as (seg1 & L1 & I1 & E1 & P1).
    + destruct r as [[b ts1] l1]. pose proof (pa_st _ _ _ _ _ _ _ _ _ _ _ _ _ P1) as S1. rewrite Hw, <- stateAt_S in S1 by lia. pose proof (pa_frames _ _ _ _ _ _ _ _ _ _ _ _ _ P1) as F1. unfold frameOf in F1. rewrite ED, EDu, Hw, <- stateAt_S in F1 by lia.
      pose proof (pa_states _ _ _ _ _ _ _ _ _ _ _ _ _ P1) as T1. rewrite Hw, <- stateAt_S in T1 by lia. cbn zeta in F1.
      assert (FI : fine (stateAt B s0 step)) by (rewrite <- Hw; split; [apply P1|split; apply P1]).
      assert (FF : frames seg1 = map (atStep s0) (if (step + 1) mod d =? 0 then [step + 1] else [])) by (rewrite F1; destruct ((step + 1) mod d =? 0); reflexivity).
      destruct b.
      * injection H as <- <-. exists seg1, (step + 1). rewrite (zrange_cons (step + 1)), (zrange_empty (step + 1 + 1)) by lia. split; [lia|]. split; [exact L1|]. split; [exact I1|]. split; [rewrite FF; cbn [filter]; reflexivity|]. split; [intros j Hj; replace j with step by lia; exact FI|]. split; [exact S1|exact T1].
      * apply IH in H; [|lia|exact S1]. destruct H as (seg2 & m & M1 & L2 & I2 & F2 & FI2 & O2). exists (seg1 ++ seg2), m. split; [lia|]. split; [rewrite L2, L1, <- app_assoc; reflexivity|]. split; [apply inner_app; assumption|].
        rewrite (zrange_cons (step + 1)) by lia. split; [rewrite frames_app, FF, F2; cbn [filter]; rewrite <- map_app; destruct ((step + 1) mod d =? 0); reflexivity|].
        split; [intros j Hj; destruct (Z.eq_dec j step) as [->|]; [exact FI|apply FI2; lia]|]. destruct o as [u|e].
        -- destruct O2 as [O1 O2]. split; [exact O1|]. rewrite states_app, T1, O2. reflexivity.
        -- destruct O2 as (j & J1 & J2 & J3). exists j. split; [lia|]. auto.
    + destruct P1 as [C1 _]. destruct (iteration_raise ct nA nB (step + 1) ts last w w' e d ED EDu Hd HI1) as (seg' & L' & F'). assert (seg' = seg1) by (rewrite L1 in L'; apply app_inv_head in L'; congruence). subst seg'. rewrite Hw in *.
      destruct F' as [F'|(FI & EZ & F')].
      * exists seg1, step. rewrite (zrange_empty (step + 1)) by lia. split; [lia|]. split; [exact L1|]. split; [exact I1|]. split; [exact F'|]. split; [intros; lia|]. exists step. split; [lia|]. auto.
      * exists seg1, (step + 1). rewrite (zrange_cons (step + 1)), (zrange_empty (step + 1 + 1)) by lia. cbn [filter]. rewrite EZ, Z.eqb_refl. cbn [map]. unfold SRun.atStep. rewrite stateAt_S by lia. split; [lia|]. split; [exact L1|]. split; [exact I1|]. split; [exact F'|].
        split; [intros j Hj; replace j with step by lia; exact FI|]. exists step. split; [lia|]. auto.
Qed.

(** the run, once it has come to its loop *)
Lemma run_frames ct nA nB s w' o d : ct_dtime ct = None -> ct_dump ct = Some d -> d <> 0 -> run B env ct true nA nB (mkWorld s []) = (w', o) -> In CFlush (w_log w') ->
  exists seg m tail, 0 <= m <= Z.max 0 (ct_steps ct) /\ w_log w' = setups B true nA s ++ seg ++ CFlush :: tail /\ (forall c, In c seg -> inner c) /\ (forall c, In c tail -> exists k, c = CFinalize k) /\
    frames seg = map (atStep s) (multiples d m) /\ (forall j, 0 <= j < m -> fine (stateAt B s j)) /\
    match o with Ok _ => w_st w' = stateAt B s m /\ states seg = map (stateAt B s) (zrange 1 m) | Raise e => raised env (w_log w') e \/ exists j, 0 <= j < ct_steps ct /\ (m = j \/ m = j + 1) /\ cause B env ct nB (stateAt B s j) (setups B true nA s ++ seg) e end.
Proof using Type.
  intros ED EDu Hd H HF. assert (NF : forall n, ~ In CFlush (firstn n (setups B true nA s))).
  { intros n Hc. apply (@In_nth_error call) in Hc. destruct Hc as [i Hi]. assert (Hc : In CFlush (setups B true nA s)). { apply nth_error_In in Hi. rewrite <- (firstn_skipn n (setups B true nA s)). apply in_or_app. left. exact Hi. }
    unfold setups in Hc. apply in_app_or in Hc. destruct Hc as [[?|[?|[]]]|Hc]; try discriminate. apply in_map_iff in Hc. destruct Hc as (k & ? & _). discriminate. }
  apply run_inv in H. destruct H as [(A & L & _)|[(A & S & e & -> & (n & N1 & L & _))|(A & w1 & ob & oc & H & S & (n & N1 & LM & OM) & O)]].
  - rewrite L in HF. destruct HF.
  - cbn [app] in L. rewrite L in HF. exfalso. exact (NF _ HF).
  - apply (loop_frames ct nA nB s d ED EDu Hd) in H; [|lia|reflexivity]. destruct H as (seg & m & M1 & L & I & F & FI & X). cbn [w_log] in L.
    assert (n <> 0%nat). { intros ->. rewrite LM, L, app_nil_r in HF. apply in_app_or in HF. destruct HF as [HF|HF]; [apply (NF (length (setups B true nA s))); rewrite firstn_all; exact HF|]. exact (I _ HF). }
    destruct n as [|n]; [congruence|]. exists seg, m, (firstn n (map CFinalize (zrange 0 (nA - 1)))). split; [lia|]. split; [rewrite LM, L, <- app_assoc; reflexivity|]. split; [exact I|].
    split; [intros c Hc; rewrite firstn_map in Hc; apply in_map_iff in Hc; destruct Hc as (k & <- & _); eauto|]. split; [exact F|]. split; [exact FI|].
    destruct oc as [u|e]; subst o; [|left; destruct OM; assumption]. destruct ob as [u'|e]; [rewrite S; exact X|]. right. destruct X as (j & J1 & J2 & J3). exists j. split; [lia|]. split; [exact J2|]. rewrite <- L. exact J3.
Qed.
End Frames.
