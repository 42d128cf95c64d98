(** Proofs about the analysis plugins. *)
From Verif Require Import PBase MAnalysis SAnalysis.
Open Scope Z_scope.
Open Scope list_scope.

(** ** Blocks *)
Section Blocks.
Context {A : Type} (iv : Z).
(** the blocks of [cur ++ steps], where [cur] is the beginning of a block that started at [t0] *)
Fixpoint cutBlocks (cur : list (Z * A)) (t0 : Z) (steps : list (Z * A)) : list (list (Z * A)) :=
  match steps with
  | [] => [cur]
  | s :: steps' => if iv <? fst s - t0 then cur :: cutBlocks [s] (fst s) steps' else cutBlocks (cur ++ [s]) t0 steps'
  end.

Lemma startsAt_fun (b : list (Z * A)) t t' : startsAt b t -> startsAt b t' -> t = t'.
Proof. intros (x & r & ->) (x' & r' & E). now injection E. Qed.
Lemma startsAt_app (b c : list (Z * A)) t : startsAt b t -> startsAt (b ++ c) t.
Proof. intros (x & r & ->). now exists x, (r ++ c). Qed.
Lemma startsAt_one (s : Z * A) : startsAt [s] (fst s).
Proof. destruct s as [t x]. now exists x, []. Qed.

Lemma cutBlocks_concat steps : forall cur t0, concat (cutBlocks cur t0 steps) = cur ++ steps.
Proof.
  induction steps as [|s steps IH]; intros cur t0; cbn [cutBlocks].
  - cbn. now rewrite app_nil_r.
  - destruct (iv <? fst s - t0); cbn [concat]; rewrite IH; [reflexivity|]. now rewrite <- app_assoc.
Qed.
Lemma cutBlocks_first steps : forall cur t0, startsAt cur t0 -> exists b bs, cutBlocks cur t0 steps = b :: bs /\ startsAt b t0.
Proof.
  induction steps as [|s steps IH]; intros cur t0 HS; cbn [cutBlocks].
  - now exists cur, [].
  - destruct (iv <? fst s - t0).
    + eexists _, _. split; [reflexivity|exact HS].
    + apply IH. now apply startsAt_app.
Qed.
Lemma cutBlocks_ok (Hiv : 0 <= iv) steps : forall cur t0,
  startsAt cur t0 -> (forall x, In x cur -> fst x - t0 <= iv) -> inBlocks iv (cur ++ steps) (cutBlocks cur t0 steps).
Proof.
  intros cur t0 HS HW. split; [apply cutBlocks_concat|].
  revert cur t0 HS HW. induction steps as [|s steps IH]; intros cur t0 HS HW; cbn [cutBlocks].
  - split.
    + intros i b Hb. apply zget_In in Hb. destruct Hb as [<-|[]]. now exists t0.
    + intros i b b' t t' Hb Hb'. apply zget_range in Hb, Hb'. cbn in *. lia.
  - destruct (iv <? fst s - t0) eqn:E.
    + apply Z.ltb_lt in E.
      assert (HS1 := startsAt_one s).
      assert (HW1 : forall x, In x [s] -> fst x - fst s <= iv) by (intros x [<-|[]]; lia).
      destruct (IH _ _ HS1 HW1) as (I1 & I2).
      split.
      * intros i b Hb. rewrite zget_cons in Hb. destruct (i =? 0); [injection Hb as <-; now exists t0|now apply (I1 _ _ Hb)].
      * intros i b b' t t' Hb Hb' Ht Ht'.
        assert (Hi := zget_range _ _ _ Hb). rewrite zget_cons in Hb, Hb'. destruct (Z.eqb_spec i 0) as [->|Hi0].
        -- injection Hb as <-. cbn in Hb'. rewrite (startsAt_fun _ _ _ Ht HS).
           destruct (cutBlocks_first steps _ _ HS1) as (b1 & bs & EQ & H1). rewrite EQ in Hb'. cbn in Hb'. injection Hb' as <-.
           rewrite (startsAt_fun _ _ _ Ht' H1). exact E.
        -- destruct (Z.eqb_spec (i + 1) 0) as [|_]; [lia|].
           eapply (I2 (i - 1)); eauto. replace (i - 1 + 1) with (i + 1 - 1) by lia. exact Hb'.
    + apply Z.ltb_ge in E. apply IH; [now apply startsAt_app|].
      intros x Hx. apply in_app_or in Hx. destruct Hx as [Hx|[<-|[]]]; [now apply HW|exact E].
Qed.

(** The division in blocks is unique. *)
Lemma firstDiff (b b' : list (Z * A)) x y rest rest' :
  b ++ rest = b' ++ rest' -> (length b < length b')%nat -> b = x :: y -> exists s, In s b' /\ exists r, rest = s :: r.
Proof.
  intros E HL _. destruct rest as [|s r].
  - rewrite app_nil_r in E. apply (f_equal (@length _)) in E. rewrite app_length in E. lia.
  - exists s. split; [|now exists r].
    assert (H : nth_error (b' ++ rest') (length b) = Some s) by (rewrite <- E, nth_error_app2, Nat.sub_diag by lia; reflexivity).
    rewrite nth_error_app1 in H by lia. now apply nth_error_In in H.
Qed.
Lemma inBlocks_tail (h b : list (Z * A)) bs : inBlocks iv h (b :: bs) -> inBlocks iv (concat bs) bs.
Proof.
  intros (_ & I1 & I2). split; [reflexivity|]. split.
  - intros i c Hc. apply (I1 (i + 1)). assert (Hi := zget_range _ _ _ Hc). rewrite zget_S by lia. exact Hc.
  - intros i c c' t t' Hc Hc'. apply (I2 (i + 1)).
    + assert (Hi := zget_range _ _ _ Hc). rewrite zget_S by lia. exact Hc.
    + assert (Hi := zget_range _ _ _ Hc). rewrite zget_S by lia. exact Hc'.
Qed.
Lemma inBlocks_first (h b : list (Z * A)) bs : inBlocks iv h (b :: bs) -> exists t, startsAt b t /\ forall x, In x b -> fst x - t <= iv.
Proof. intros (_ & I1 & _). now apply (I1 0). Qed.
Lemma inBlocks_next (h b : list (Z * A)) b' bs : inBlocks iv h (b :: b' :: bs) -> forall t t', startsAt b t -> startsAt b' t' -> iv < t' - t.
Proof. intros (_ & _ & I2) t t'. now apply (I2 0). Qed.
Lemma inBlocks_len_le (h b : list (Z * A)) bs b' bs' :
  inBlocks iv h (b :: bs) -> inBlocks iv h (b' :: bs') -> (length b < length b')%nat -> False.
Proof.
  intros I J HL.
  destruct (inBlocks_first _ _ _ I) as (t & St & _), (inBlocks_first _ _ _ J) as (t' & St' & W').
  assert (EC : b ++ concat bs = b' ++ concat bs') by (destruct I as (<- & _), J as (E & _); cbn in E; cbn; now rewrite E).
  destruct St as (x & y & Eb).
  destruct (firstDiff _ _ _ _ _ _ EC HL Eb) as (s & Hs & r & Er).
  destruct bs as [|c bs]; [discriminate Er|].
  destruct (inBlocks_first _ _ _ (inBlocks_tail _ _ _ I)) as (tc & Sc & _).
  assert (N := inBlocks_next _ _ _ _ I t tc ltac:(now exists x, y) Sc).
  destruct Sc as (xc & yc & ->). cbn in Er. injection Er as Es _. subst s.
  specialize (W' _ Hs). cbn in W'.
  assert (t' = t). { destruct St' as (x' & y' & Eb'). rewrite Eb, Eb' in EC. cbn in EC. injection EC as E1 _. now subst. }
  lia.
Qed.
Lemma inBlocks_unique (bs : list (list (Z * A))) : forall h bs', inBlocks iv h bs -> inBlocks iv h bs' -> bs = bs'.
Proof.
  induction bs as [|b bs IH]; intros h bs' I J.
  - destruct bs' as [|b' bs']; [reflexivity|].
    destruct (inBlocks_first _ _ _ J) as (t & (x & y & ->) & _). destruct I as (<- & _), J as (E & _). discriminate E.
  - destruct bs' as [|b' bs'].
    { destruct (inBlocks_first _ _ _ I) as (t & (x & y & ->) & _). destruct J as (<- & _), I as (E & _). discriminate E. }
    assert (HL : length b = length b').
    { destruct (Nat.lt_trichotomy (length b) (length b')) as [H|[H|H]]; [exfalso; exact (inBlocks_len_le _ _ _ _ _ I J H)|exact H|exfalso; exact (inBlocks_len_le _ _ _ _ _ J I H)]. }
    assert (EC : b ++ concat bs = b' ++ concat bs') by (destruct I as (<- & _), J as (E & _); cbn in E; cbn; now rewrite E).
    assert (Eb : b = b' /\ concat bs = concat bs').
    { clear - EC HL. revert b' HL EC. induction b as [|a b IHb]; intros [|a' b'] HL EC; cbn in *; try discriminate; [now split|].
      injection EC as -> EC. injection HL as HL. destruct (IHb _ HL EC) as (-> & E). now split. }
    destruct Eb as (-> & Ec). f_equal. apply (IH (concat bs)); [now apply inBlocks_tail in I|]. rewrite Ec. now apply inBlocks_tail in J.
Qed.
End Blocks.

(** ** Composition *)

Lemma addArrays_len a : forall b, zlen a = zlen b -> zlen (addArrays a b) = zlen a.
Proof.
  induction a as [|x a IH]; intros [|y b] H; try reflexivity; cbn [addArrays]; [rewrite H; reflexivity|]. rewrite !zlen_cons in *. rewrite IH; lia.
Qed.
Lemma addArrays_get a : forall b j, zlen a = zlen b ->
  zget (addArrays a b) j = match zget a j, zget b j with Some x, Some y => Some (x + y) | _, _ => None end.
Proof.
  induction a as [|x a IH]; intros [|y b] j H; cbn [addArrays]; try (rewrite zlen_cons, zlen_nil in H; assert (K := zlen_nonneg b); lia);
    try (rewrite zlen_cons, zlen_nil in H; assert (K := zlen_nonneg a); lia).
  - now rewrite zget_nil.
  - rewrite !zget_cons. destruct (j =? 0); [reflexivity|]. apply IH. rewrite !zlen_cons in H. lia.
Qed.

(** the sums of the running block *)
Record coInv (n : Z) (cur : list (Z * list Z)) (t0 : Z) (co : composition) : Prop := {
  ci_len : zlen (co_count co) = n;
  ci_empty : co_empty co = repeat 0 (Z.to_nat n);
  ci_last : co_last co = t0;
  ci_steps : co_steps co = zlen cur;
  ci_pos : 0 < zlen cur;
  ci_sum : forall j c, zget (co_count co) j = Some c -> c = zsum (column j cur) }.
Definition blockData (n : Z) (block : list (Z * list Z)) (d : list Q) : Prop :=
  zlen d = n /\ forall j q, zget d j = Some q -> isMean (column j block) q.

Lemma column_app j a b : column j (a ++ b) = column j a ++ column j b.
Proof. apply map_app. Qed.
Lemma Qdiv_mean c n : 0 < n -> (inject_Z c / inject_Z n * inject_Z n == inject_Z c)%Q.
Proof. intros H. field. intros E. unfold Qeq in E. cbn in E. lia. Qed.

Lemma coRegister_inv n cur t0 co s : 0 <= n -> coInv n cur t0 co -> zlen (snd s) = n ->
  exists co', coRegister co (fst s) (snd s) = Ok co' /\ co_interval co' = co_interval co /\
    (if co_interval co <? fst s - t0
     then coInv n [s] (fst s) co' /\ exists d, co_data co' = co_data co ++ [d] /\ blockData n cur d
     else coInv n (cur ++ [s]) t0 co' /\ co_data co' = co_data co).
Proof.
  intros Hn I Hs. unfold coRegister. rewrite (ci_last _ _ _ _ I). destruct (co_interval co <? fst s - t0) eqn:E; cbn [co_count].
  - unfold numpyAdd. rewrite (ci_empty _ _ _ _ I), zlen_repeat, Z2Nat.id, Hs, Z.eqb_refl by exact Hn.
    eexists. split; [reflexivity|]. split; [reflexivity|]. split.
    + assert (HL : zlen (repeat 0 (Z.to_nat n)) = zlen (snd s)) by (rewrite zlen_repeat; lia).
      constructor; cbn [co_count co_empty co_last co_steps]; try reflexivity.
      * rewrite addArrays_len by exact HL. rewrite zlen_repeat. lia.
      * intros j c Hc. rewrite addArrays_get in Hc by exact HL. cbn. destruct (zget (snd s) j) eqn:K; [|destruct (zget (repeat 0 (Z.to_nat n)) j); discriminate].
        apply zget_range in K. rewrite zget_repeat in Hc by lia. injection Hc as <-. lia.
    + eexists. split; [reflexivity|]. split; [now rewrite zlen_map, (ci_len _ _ _ _ I)|].
      intros j q Hq. rewrite zget_map in Hq. destruct (zget (co_count co) j) eqn:K; [|discriminate]. cbn in Hq. injection Hq as <-.
      apply (ci_sum _ _ _ _ I) in K. rewrite K, (ci_steps _ _ _ _ I). split.
      * assert (P := ci_pos _ _ _ _ I). unfold column. rewrite map_length. unfold zlen in P. lia.
      * unfold column at 2. rewrite zlen_map. apply Qdiv_mean. exact (ci_pos _ _ _ _ I).
  - unfold numpyAdd. rewrite (ci_len _ _ _ _ I), Hs, Z.eqb_refl. eexists. split; [reflexivity|]. split; [reflexivity|].
    split; [|reflexivity].
    assert (HL : zlen (co_count co) = zlen (snd s)) by (rewrite (ci_len _ _ _ _ I); lia).
    constructor; cbn [co_count co_empty co_last co_steps].
    + rewrite addArrays_len by exact HL. exact (ci_len _ _ _ _ I).
    + exact (ci_empty _ _ _ _ I).
    + exact (ci_last _ _ _ _ I).
    + rewrite (ci_steps _ _ _ _ I), zlen_app. reflexivity.
    + rewrite zlen_app. assert (P := ci_pos _ _ _ _ I). cbn. lia.
    + intros j c Hc. rewrite addArrays_get in Hc by exact HL. rewrite column_app, zsum_app. cbn.
      destruct (zget (co_count co) j) eqn:K1; [|discriminate]. destruct (zget (snd s) j) eqn:K2; [|discriminate].
      injection Hc as <-. rewrite (ci_sum _ _ _ _ I _ _ K1). lia.
Qed.

Lemma coSteps_blocks n : 0 <= n -> forall steps cur t0 co, coInv n cur t0 co -> (forall s, In s steps -> zlen (snd s) = n) ->
  exists co' ds, coSteps co steps = Ok co' /\ co_interval co' = co_interval co /\ co_data co' = co_data co ++ ds
    /\ Forall2 (blockData n) (removelast (cutBlocks (co_interval co) cur t0 steps)) ds.
Proof.
  intros Hn. induction steps as [|s steps IH]; intros cur t0 co I HS; cbn [coSteps cutBlocks].
  - exists co, []. rewrite app_nil_r. repeat split. constructor.
  - destruct (coRegister_inv n cur t0 co s Hn I (HS _ (or_introl eq_refl))) as (co1 & E1 & EI & H1). rewrite E1.
    destruct (co_interval co <? fst s - t0) eqn:E.
    + destruct H1 as (I1 & d & Ed & Hd).
      destruct (IH _ _ _ I1 (fun x Hx => HS x (or_intror Hx))) as (co2 & ds & E2 & EI2 & ED & F).
      exists co2, (d :: ds). split; [exact E2|]. split; [congruence|]. split; [rewrite ED, Ed, <- app_assoc; reflexivity|].
      rewrite EI in F. destruct (cutBlocks_first (co_interval co) steps _ _ (startsAt_one s)) as (b & bs & EB & _).
      rewrite EB in *. change (removelast (cur :: b :: bs)) with (cur :: removelast (b :: bs)). now constructor.
    + destruct H1 as (I1 & Ed).
      destruct (IH _ _ _ I1 (fun x Hx => HS x (or_intror Hx))) as (co2 & ds & E2 & EI2 & ED & F).
      exists co2, ds. split; [exact E2|]. split; [congruence|]. split; [congruence|]. now rewrite EI in F.
Qed.
Lemma coSetup_inv interval n (start : Z * list Z) : 0 <= n -> zlen (snd start) = n -> coInv n [start] (fst start) (coSetup interval (fst start) (snd start) n).
Proof.
  intros Hn HL. constructor; try reflexivity; [exact HL|]. intros j c Hc. cbn in Hc. cbn. rewrite Hc. lia.
Qed.

(** ** Process statistics *)
Lemma tally_app {A} (f : A -> bool) l m : tally f (l ++ m) = tally f l + tally f m.
Proof. unfold tally. now rewrite filter_app, zlen_app. Qed.
Lemma tally_one {A} (f : A -> bool) a : tally f [a] = if f a then 1 else 0.
Proof. unfold tally. cbn. now destruct (f a). Qed.
Lemma tally_cons {A} (f : A -> bool) a l : tally f (a :: l) = (if f a then 1 else 0) + tally f l.
Proof. change (a :: l) with ([a] ++ l). now rewrite tally_app, tally_one. Qed.

Lemma numpyInc_ok l i : 0 <= i < zlen l -> exists l', numpyInc l i = Ok l' /\ zlen l' = zlen l /\ zsum l' = zsum l + 1 /\
  forall j, zget l' j = option_map (fun v => v + (if i =? j then 1 else 0)) (zget l j).
Proof.
  intros Hi. unfold numpyInc. destruct (Z.ltb_spec i 0) as [|_]; [lia|].
  destruct (zget_lt l i Hi) as (v & Ev). rewrite Ev. destruct (zset_lt l i (v + 1) Hi) as (l' & El). rewrite El.
  exists l'. split; [reflexivity|]. split; [now apply (zset_len _ _ _ _ El)|]. split.
  - destruct (zget_split _ _ _ Ev) as (l1 & l2 & E1 & E2). subst l i. rewrite zset_split in El. injection El as <-. rewrite !zsum_app, !zsum_cons. lia.
  - intros j. rewrite (zset_get _ _ _ _ _ El). destruct (Z.eqb_spec i j) as [->|Hij].
    + rewrite Z.eqb_refl, Ev. reflexivity.
    + destruct (Z.eqb_spec j i) as [|_]; [congruence|]. destruct (zget l j); cbn; [f_equal; lia|reflexivity].
Qed.

Definition obs (s : Z * (Z * Z)) : Z * option (Z * Z) := (fst s, Some (snd s)).
Record psInv (procs : list Z) (iv : Z) (sp : bool) (ns : Z) (seen cur : list (Z * option (Z * Z))) (t0 : Z) (ps : statistics) : Prop := {
  pi_procs : ps_procs ps = procs;
  pi_iv : ps_interval ps = iv;
  pi_last : ps_last ps = t0;
  pi_count : ps_count ps = tally (tracked procs) cur;
  pi_spatial : if sp then exists l, ps_spatial ps = Some l /\ zlen l = ns /\ zsum l = tally (tracked procs) seen /\ (forall j v, zget l j = Some v -> v = tally (trackedAt procs j) seen)
               else ps_spatial ps = None }.
Lemma psRegister_inv procs iv sp ns seen cur t0 ps s : psInv procs iv sp ns seen cur t0 ps -> 0 <= snd (snd s) < ns ->
  exists ps', psRegister ps (fst s) (fst (snd s)) (snd (snd s)) = Ok ps' /\
    (if iv <? fst s - t0
     then psInv procs iv sp ns (seen ++ [obs s]) [obs s] (fst s) ps' /\ ps_data ps' = ps_data ps ++ [tally (tracked procs) cur]
     else psInv procs iv sp ns (seen ++ [obs s]) (cur ++ [obs s]) t0 ps' /\ ps_data ps' = ps_data ps).
Proof.
  intros I Hs. unfold psRegister. rewrite (pi_iv _ _ _ _ _ _ _ _ I), (pi_last _ _ _ _ _ _ _ _ I), (pi_procs _ _ _ _ _ _ _ _ I).
  assert (SP := pi_spatial _ _ _ _ _ _ _ _ I).
  destruct (iv <? fst s - t0) eqn:E; cbn [ps_procs ps_spatial ps_interval ps_last ps_data ps_count];
    rewrite ?(pi_procs _ _ _ _ _ _ _ _ I), ?(pi_iv _ _ _ _ _ _ _ _ I), ?(pi_last _ _ _ _ _ _ _ _ I), ?(pi_count _ _ _ _ _ _ _ _ I).
  all: destruct (zmem (fst (snd s)) procs) eqn:T.
  all: assert (TT : tracked procs (obs s) = zmem (fst (snd s)) procs) by (unfold tracked, obs; cbn; now destruct (snd s)).
  all: rewrite T in TT.
  all: assert (TA : forall j, trackedAt procs j (obs s) = if snd (snd s) =? j then zmem (fst (snd s)) procs else false)
    by (intros j; unfold trackedAt, obs; cbn; destruct (snd s) as [p x]; cbn; destruct (zmem p procs), (x =? j); reflexivity).
  all: rewrite T in TA.
  all: destruct sp.
  all: try (destruct SP as (l & EL & LL & SL & GL); rewrite EL).
  all: try (rewrite SP).
  all: try (destruct (numpyInc_ok l (snd (snd s))) as (l' & EI & LI & SI & GI); [lia|]; rewrite EI).
  all: eexists; split; [reflexivity|]; split; [constructor; cbn [ps_procs ps_spatial ps_interval ps_last ps_data ps_count]; try reflexivity|try reflexivity].
  all: try (exact (pi_procs _ _ _ _ _ _ _ _ I)).
  all: try (exact (pi_iv _ _ _ _ _ _ _ _ I)).
  all: try (exact (pi_last _ _ _ _ _ _ _ _ I)).
  all: rewrite ?tally_app, ?tally_one, ?TT.
  all: try lia.
  all: try (rewrite (pi_count _ _ _ _ _ _ _ _ I); lia).
  all: try exact SP.
  all: try (exists l'; split; [reflexivity|]; split; [lia|]; split; [lia|]; intros j v Hv; rewrite GI in Hv; destruct (zget l j) eqn:K; [|discriminate]; cbn in Hv; injection Hv as <-; rewrite tally_app, tally_one, TA, (GL _ _ K); destruct (snd (snd s) =? j); lia).
  all: try (exists l; split; [first [reflexivity|exact EL]|]; split; [lia|]; split; [lia|]; intros j v Hv; rewrite tally_app, tally_one, TA, (GL _ _ Hv); destruct (snd (snd s) =? j); lia).
  destruct SP as (l & EL & LL & SL & GL). exists l. split; [exact EL|]. split; [lia|]. split; [lia|]. intros j v Hv. rewrite tally_app, tally_one, TA, (GL _ _ Hv). destruct (snd (snd s) =? j); lia.
Qed.
Lemma psSteps_blocks procs iv sp ns : forall steps seen cur t0 ps, psInv procs iv sp ns seen cur t0 ps -> startsAt cur t0 -> (forall s, In s steps -> 0 <= snd (snd s) < ns) ->
  exists ps' lastBlock, psSteps ps steps = Ok ps' /\ psInv procs iv sp ns (seen ++ map obs steps) lastBlock (ps_last ps') ps'
    /\ startsAt lastBlock (ps_last ps') /\ last (cutBlocks iv cur t0 (map obs steps)) [] = lastBlock
    /\ ps_data ps' = ps_data ps ++ map (tally (tracked procs)) (removelast (cutBlocks iv cur t0 (map obs steps))).
Proof.
  induction steps as [|s steps IH]; intros seen cur t0 ps I HC HS; cbn [psSteps cutBlocks map]; try change (fst (obs s)) with (fst s).
  - exists ps, cur. cbn. rewrite !app_nil_r. rewrite (pi_last _ _ _ _ _ _ _ _ I). now repeat split; try apply I.
  - destruct (psRegister_inv _ _ _ _ _ _ _ _ s I (HS _ (or_introl eq_refl))) as (ps1 & E1 & H1). rewrite E1.
    destruct (iv <? fst s - t0) eqn:E.
    + destruct H1 as (I1 & ED).
      destruct (IH _ _ _ _ I1 (startsAt_one (obs s)) (fun x Hx => HS x (or_intror Hx))) as (ps2 & b & E2 & I2 & S2 & L2 & D2).
      exists ps2, b. split; [exact E2|]. rewrite <- app_assoc in I2. split; [exact I2|]. split; [exact S2|].
      destruct (cutBlocks_first iv (map obs steps) _ _ (startsAt_one (obs s))) as (b1 & bs & EB & _). change (fst (obs s)) with (fst s) in EB. rewrite EB in *. split.
      * change (last (cur :: b1 :: bs) []) with (last (b1 :: bs) []). exact L2.
      * rewrite D2, ED, <- app_assoc. change (removelast (cur :: b1 :: bs)) with (cur :: removelast (b1 :: bs)). reflexivity.
    + destruct H1 as (I1 & ED).
      destruct (IH _ _ _ _ I1 (startsAt_app _ _ _ HC) (fun x Hx => HS x (or_intror Hx))) as (ps2 & b & E2 & I2 & S2 & L2 & D2).
      exists ps2, b. split; [exact E2|]. rewrite <- app_assoc in I2. split; [exact I2|]. split; [exact S2|]. split; [exact L2|].
      rewrite D2, ED. reflexivity.
Qed.

(** ** Time step distribution *)
Lemma tsGrow_ok : forall passes h b, 10 <= zlen h -> b + 1 - zlen h <= Z.of_nat passes ->
  exists zs, tsGrow passes h b = Some (h ++ repeat 0 zs) /\ b < zlen (h ++ repeat 0 zs).
Proof.
  induction passes as [|n IH]; intros h b HL HP; cbn [tsGrow]; destruct (Z.leb_spec (zlen h) b) as [H|H]; try lia.
  - exists O. cbn. rewrite app_nil_r. split; [reflexivity|lia].
  - set (k := Z.to_nat (zlen h / 10)). assert (1 <= zlen h / 10) by (apply Z.div_le_lower_bound; lia).
    assert (EL : zlen (h ++ repeat 0 k) = zlen h + zlen h / 10) by (rewrite zlen_app, zlen_repeat; unfold k; lia).
    destruct (IH (h ++ repeat 0 k) b) as (zs & E & HB); [lia|lia|].
    exists (k + zs)%nat. rewrite repeat_app, app_assoc. split; assumption.
  - exists O. cbn. rewrite app_nil_r. split; [reflexivity|lia].
Qed.
Definition tsInv (size : Z) (t : Z) (ds : list Z) (ts : distribution) : Prop :=
  ts_bin ts = size /\ ts_last ts = t /\ 10 <= zlen (ts_hist ts) /\ zsum (ts_hist ts) = zlen ds
  /\ (forall b, 0 <= b < zlen (ts_hist ts) -> zget (ts_hist ts) b = Some (tally (inBin size b) ds))
  /\ (forall d, In d ds -> 0 <= d < zlen (ts_hist ts) * size).
Lemma inBin_quot size d b : 0 < size -> 0 <= d -> inBin size b d = (Z.quot d size =? b).
Proof.
  intros HS HD. unfold inBin. assert (H := Z.quot_rem' d size). assert (R := Z.rem_bound_pos d size HD HS).
  destruct (Z.leb_spec (b * size) d), (Z.ltb_spec d ((b + 1) * size)), (Z.eqb_spec (Z.quot d size) b); cbn; try reflexivity; exfalso; nia.
Qed.
Lemma tally_none {A} (f : A -> bool) l : (forall a, In a l -> f a = false) -> tally f l = 0.
Proof.
  intros H. induction l as [|a l IH]; [reflexivity|]. rewrite tally_cons, IH by (intros x Hx; apply H; now right). rewrite (H a) by now left. reflexivity.
Qed.
Lemma tsRegister_inv size t ds ts time passes : 0 < size -> t <= time -> Z.quot (time - t) size < Z.of_nat passes -> tsInv size t ds ts ->
  exists ts', tsRegister passes ts time = Some (Ok ts') /\ tsInv size time (ds ++ [time - t]) ts'.
Proof.
  intros HS HT HP (EB & EL & HL & HSum & HG & HD). unfold tsRegister. rewrite EB, EL. destruct (Z.eqb_spec size 0) as [|_]; [lia|].
  set (b := Z.quot (time - t) size) in *.
  assert (Hb : 0 <= b) by (apply Z.quot_pos; lia).
  destruct (tsGrow_ok passes (ts_hist ts) b HL) as (zs & EG & HBL); [lia|]. rewrite EG. cbn [obind].
  destruct (numpyInc_ok (ts_hist ts ++ repeat 0 zs) b) as (h' & EI & LI & SI & GI); [lia|]. rewrite EI.
  eexists. split; [reflexivity|]. unfold tsInv. cbn [ts_bin ts_last ts_hist].
  assert (LE : zlen h' = zlen (ts_hist ts) + Z.of_nat zs) by (rewrite LI, zlen_app, zlen_repeat; lia).
  assert (QR := Z.quot_rem' (time - t) size). assert (RR := Z.rem_bound_pos (time - t) size ltac:(lia) HS). fold b in QR.
  split; [reflexivity|]. split; [reflexivity|]. split; [lia|]. split; [|split].
  - rewrite SI, zsum_app, zsum_repeat, HSum, zlen_app. cbn. lia.
  - intros c Hc. rewrite GI, tally_app, tally_one, inBin_quot by lia. fold b.
    destruct (Z.lt_ge_cases c (zlen (ts_hist ts))) as [H|H].
    + rewrite zget_app_l, HG by lia. reflexivity.
    + rewrite zget_app_r, zget_repeat by lia. cbn [option_map]. f_equal. f_equal. symmetry. apply tally_none. intros d Hd. apply HD in Hd.
      rewrite inBin_quot by lia. apply Z.eqb_neq. intros K. assert (Q1 := Z.quot_rem' d size). assert (R1 := Z.rem_bound_pos d size ltac:(lia) HS). nia.
  - intros d Hd. apply in_app_or in Hd. destruct Hd as [Hd|[<-|[]]].
    + apply HD in Hd. nia.
    + assert (b < zlen h') by lia. nia.
Qed.
Lemma tsSteps_inv size passes : 0 < size -> forall times t ds ts, tsInv size t ds ts -> forwards t times -> (forall d, In d (increments t times) -> Z.quot d size < Z.of_nat passes) ->
  exists ts', tsSteps passes ts times = Some (Ok ts') /\ tsInv size (last times t) (ds ++ increments t times) ts'.
Proof.
  intros HS. induction times as [|t1 times IH]; intros t ds ts I HF HP; cbn [tsSteps increments].
  - exists ts. rewrite app_nil_r. now split.
  - destruct (tsRegister_inv size t ds ts t1 passes HS) as (ts1 & E1 & I1).
    + specialize (HF (t1 - t) (or_introl eq_refl)). lia.
    + apply HP. now left.
    + exact I.
    + rewrite E1. cbn [obind]. destruct (IH _ _ _ I1) as (ts2 & E2 & I2).
      * intros d Hd. apply HF. now right.
      * intros d Hd. apply HP. now right.
      * exists ts2. split; [exact E2|]. rewrite <- app_assoc in I2. cbn in I2.
        replace (last (t1 :: times) t) with (last times t1); [exact I2|]. destruct times as [|a l]; [reflexivity|].
        change (last (t1 :: a :: l) t) with (last (a :: l) t). clear. revert a. induction l as [|b l IH]; intros a; [reflexivity|]. exact (IH b).
Qed.
Lemma tsSetup_inv size t : tsInv size t [] (tsSetup size t).
Proof.
  split; [reflexivity|]. split; [reflexivity|]. split; [cbn; lia|]. split; [reflexivity|]. split; [|intros d []].
  intros b Hb. cbn [tsSetup ts_hist] in *. rewrite zlen_repeat in Hb. now apply zget_repeat.
Qed.
Lemma Forall2_zget {A B} (R : A -> B -> Prop) l m : Forall2 R l m -> forall i a b, zget l i = Some a -> zget m i = Some b -> R a b.
Proof.
  intros F. induction F as [|x y l m H F IH]; intros i a b Ha Hb; [rewrite zget_nil in Ha; discriminate|].
  rewrite zget_cons in Ha. rewrite zget_cons in Hb. destruct (i =? 0); [congruence|eauto].
Qed.
Lemma Forall2_zlen {A B} (R : A -> B -> Prop) l m : Forall2 R l m -> zlen l = zlen m.
Proof. intros F. induction F; [reflexivity|rewrite !zlen_cons; lia]. Qed.
