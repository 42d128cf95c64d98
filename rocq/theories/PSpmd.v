(** Proofs about MSpmd.v: processes that start alike stay alike and do what the single process does. *)
From Verif Require Import PBase PMpi MSpmd.
Open Scope Z_scope.
Open Scope list_scope.

Lemma combine_map_l {A B C} (g : A -> B) (l : list A) (fs : list C) : combine (map g l) fs = map (fun xf => (g (fst xf), snd xf)) (combine l fs).
Proof. revert fs; induction l as [|a l IH]; intros [|f fs]; cbn; f_equal; auto. Qed.
Lemma map_fst_combine {A C} (l : list A) (fs : list C) : length fs = length l -> map fst (combine l fs) = l.
Proof. revert fs; induction l as [|a l IH]; intros [|f fs]; cbn; intros H; try discriminate; f_equal; auto. Qed.
Lemma map_combine_eta {A C} (l : list A) (fs : list C) : map (fun xf => (fst xf, snd xf)) (combine l fs) = combine l fs.
Proof. rewrite <- (map_id (combine l fs)) at 2. apply map_ext. intros [a c]. reflexivity. Qed.
Lemma combine_flip {A B C} (h : A -> B -> C) (l : list A) (fs : list B) : map (fun xf => h (fst xf) (snd xf)) (combine l fs) = map (fun fx => h (snd fx) (fst fx)) (combine fs l).
Proof. revert fs; induction l as [|a l IH]; intros [|f fs]; cbn; f_equal; auto. Qed.

(** the processes cannot all finish *)
Inductive fails {A} (size : Z) : list (prog A) -> Prop :=
| failsFault ps : In Fault ps -> fails size ps
| failsJoin lks : joinOverProcesses size (map fst lks) = None -> fails size (map (fun lk : list Z * (list Z -> prog A) => Join (fst lk) (snd lk)) lks)
| failsJoin2 lks v : joinOverProcesses size (map fst lks) = Some v -> fails size (map (fun lk : list Z * (list Z -> prog A) => snd lk v) lks) ->
    fails size (map (fun lk : list Z * (list Z -> prog A) => Join (fst lk) (snd lk)) lks)
| failsBcast2 vks v : zget (map fst vks) 0 = Some v -> fails size (map (fun vk : Z * (Z -> prog A) => snd vk v) vks) ->
    fails size (map (fun vk : Z * (Z -> prog A) => Bcast (fst vk) (snd vk)) vks).

Lemma joins_inj {A} (l l' : list (list Z * (list Z -> prog A))) :
  map (fun lk => Join (fst lk) (snd lk)) l = map (fun lk => Join (fst lk) (snd lk)) l' -> l = l'.
Proof.
  revert l'; induction l as [|[a k] l IH]; intros [|[a' k'] l']; cbn; intros H; try discriminate; [reflexivity|].
  injection H as -> -> H. f_equal. auto.
Qed.
Lemma bcasts_inj {A} (l l' : list (Z * (Z -> prog A))) :
  map (fun lk => Bcast (fst lk) (snd lk)) l = map (fun lk => Bcast (fst lk) (snd lk)) l' -> l = l'.
Proof.
  revert l'; induction l as [|[a k] l IH]; intros [|[a' k'] l']; cbn; intros H; try discriminate; [reflexivity|].
  injection H as -> -> H. f_equal. auto.
Qed.
Lemma rets_inj {A} (l l' : list A) : map (@Ret A) l = map Ret l' -> l = l'.
Proof. revert l'; induction l as [|a l IH]; intros [|a' l']; cbn; intros H; try discriminate; [reflexivity|]. injection H as -> H. f_equal. auto. Qed.

Ltac heads H := exfalso; match type of H with map _ ?l = map _ ?l' => destruct l; destruct l'; discriminate || (cbn in *; congruence) end.

Lemma together_det {A} size (ps : list (prog A)) rs : together size ps rs -> ps <> [] -> forall rs', together size ps rs' -> rs' = rs.
Proof.
  induction 1 as [rs|lks v rs J T IH|vks v rs J T IH]; intros Hne rs' T'.
  - inversion T' as [rs2 E|lks2 v2 rs2 J2 T2 E|vks2 v2 rs2 J2 T2 E]; subst.
    + symmetry. apply rets_inj. auto.
    + heads E.
    + heads E.
  - inversion T' as [rs2 E|lks2 v2 rs2 J2 T2 E|vks2 v2 rs2 J2 T2 E]; subst.
    + heads E.
    + apply joins_inj in E. subst. rewrite J in J2. injection J2 as <-. apply IH; [destruct lks; [contradiction|discriminate]|exact T2].
    + heads E.
  - inversion T' as [rs2 E|lks2 v2 rs2 J2 T2 E|vks2 v2 rs2 J2 T2 E]; subst.
    + heads E.
    + heads E.
    + apply bcasts_inj in E. subst. rewrite J in J2. injection J2 as <-. apply IH; [destruct vks; [contradiction|discriminate]|exact T2].
Qed.
Lemma fails_no {A} size (ps : list (prog A)) : fails size ps -> ps <> [] -> forall rs, ~ together size ps rs.
Proof.
  induction 1 as [ps F|lks J|lks v J F IH|vks v J F IH]; intros Hne rs T.
  - inversion T as [rs2 E|lks2 v2 rs2 J2 T2 E|vks2 v2 rs2 J2 T2 E]; subst; apply in_map_iff in F; destruct F as (x & E & _); discriminate.
  - inversion T as [rs2 E|lks2 v2 rs2 J2 T2 E|vks2 v2 rs2 J2 T2 E]; subst; [heads E| |heads E]. apply joins_inj in E. subst. congruence.
  - inversion T as [rs2 E|lks2 v2 rs2 J2 T2 E|vks2 v2 rs2 J2 T2 E]; subst; [heads E| |heads E]. apply joins_inj in E. subst. rewrite J in J2. injection J2 as <-.
    apply (IH ltac:(destruct lks; [contradiction|discriminate]) rs). exact T2.
  - inversion T as [rs2 E|lks2 v2 rs2 J2 T2 E|vks2 v2 rs2 J2 T2 E]; subst; [heads E|heads E|]. apply bcasts_inj in E. subst. rewrite J in J2. injection J2 as <-.
    apply (IH ltac:(destruct vks; [contradiction|discriminate]) rs). exact T2.
Qed.

(** ** One thing after the other *)
Definition bindAll {A B} (ps : list (prog A)) (fs : list (A -> prog B)) : list (prog B) := map (fun pf => pbind (fst pf) (snd pf)) (combine ps fs).
Definition applyAll {A B} (fs : list (A -> prog B)) (xs : list A) : list (prog B) := map (fun fa => (fst fa) (snd fa)) (combine fs xs).
Lemma bindAll_join {A B} (lks : list (list Z * (list Z -> prog A))) (fs : list (A -> prog B)) :
  bindAll (map (fun lk => Join (fst lk) (snd lk)) lks) fs =
  map (fun lk => Join (fst lk) (snd lk)) (map (fun x : (list Z * (list Z -> prog A)) * (A -> prog B) => (fst (fst x), fun v => pbind (snd (fst x) v) (snd x))) (combine lks fs)).
Proof. unfold bindAll. rewrite combine_map_l, !map_map. apply map_ext. intros [[l k] f]. reflexivity. Qed.
Lemma bindAll_bcast {A B} (lks : list (Z * (Z -> prog A))) (fs : list (A -> prog B)) :
  bindAll (map (fun lk => Bcast (fst lk) (snd lk)) lks) fs =
  map (fun lk => Bcast (fst lk) (snd lk)) (map (fun x : (Z * (Z -> prog A)) * (A -> prog B) => (fst (fst x), fun v => pbind (snd (fst x) v) (snd x))) (combine lks fs)).
Proof. unfold bindAll. rewrite combine_map_l, !map_map. apply map_ext. intros [[l k] f]. reflexivity. Qed.
Lemma fsts {A B C X} (lks : list (X * A)) (fs : list B) (h : X * A -> B -> C) : length fs = length lks ->
  map fst (map (fun x => (fst (fst x), h (fst x) (snd x))) (combine lks fs)) = map fst lks.
Proof. intros H. rewrite map_map. cbn [fst]. rewrite <- (map_fst_combine lks fs H) at 2. rewrite map_map. reflexivity. Qed.
Lemma next_bind {A B X} (lks : list (X * (X -> prog A))) (fs : list (A -> prog B)) v :
  map (fun lk => snd lk v) (map (fun x => (fst (fst x), fun v => pbind (snd (fst x) v) (snd x))) (combine lks fs)) = bindAll (map (fun lk => snd lk v) lks) fs.
Proof. unfold bindAll. rewrite combine_map_l, !map_map. apply map_ext. intros [[l k] f]. reflexivity. Qed.

Lemma together_bind {A B} size (ps : list (prog A)) xs (fs : list (A -> prog B)) (P : list (prog B) -> Prop) :
  (forall lks v, joinOverProcesses size (map fst lks) = Some v -> P (map (fun lk : list Z * (list Z -> prog B) => snd lk v) lks) -> P (map (fun lk => Join (fst lk) (snd lk)) lks)) ->
  (forall vks v, zget (map fst vks) 0 = Some v -> P (map (fun lk : Z * (Z -> prog B) => snd lk v) vks) -> P (map (fun lk => Bcast (fst lk) (snd lk)) vks)) ->
  together size ps xs -> length fs = length ps -> P (applyAll fs xs) -> P (bindAll ps fs).
Proof.
  intros PJ PB T. induction T as [rs|lks v rs J T IH|vks v rs J T IH]; intros HL HP.
  - unfold bindAll. rewrite combine_map_l, map_map. cbn [fst snd pbind]. rewrite (combine_flip (fun x f => f x)). exact HP.
  - rewrite map_length in *. rewrite bindAll_join. apply PJ with v.
    + rewrite (fsts lks fs (fun lk f v => pbind (snd lk v) f) HL). exact J.
    + rewrite next_bind. apply IH; [exact HL|exact HP].
  - rewrite map_length in *. rewrite bindAll_bcast. apply PB with v.
    + rewrite (fsts vks fs (fun lk f v => pbind (snd lk v) f) HL). exact J.
    + rewrite next_bind. apply IH; [exact HL|exact HP].
Qed.
Lemma fails_bind {A B} size (ps : list (prog A)) (fs : list (A -> prog B)) : fails size ps -> length fs = length ps -> fails size (bindAll ps fs).
Proof.
  induction 1 as [ps F|lks J|lks v J F IH|vks v J F IH]; intros HL.
  - apply failsFault. unfold bindAll. clear - F HL. revert fs HL; induction ps as [|p ps IH]; intros [|f fs] HL; cbn in *; try contradiction; try discriminate.
    destruct F as [->|F]; [left; reflexivity|right; apply IH; auto].
  - rewrite map_length in HL. rewrite bindAll_join. apply failsJoin. rewrite (fsts lks fs (fun lk f v => pbind (snd lk v) f) HL). exact J.
  - rewrite map_length in *. rewrite bindAll_join. apply failsJoin2 with v; [rewrite (fsts lks fs (fun lk f v => pbind (snd lk v) f) HL); exact J|].
    rewrite next_bind. apply IH. exact HL.
  - rewrite map_length in *. rewrite bindAll_bcast. apply failsBcast2 with v; [rewrite (fsts vks fs (fun lk f v => pbind (snd lk v) f) HL); exact J|].
    rewrite next_bind. apply IH. exact HL.
Qed.

(** ** The processes together do what is described by a partial function of the rank *)
Definition ranksOf (size : Z) : list Z := zrange 0 (size - 1).
Definition agrees {A} (size : Z) (m : Z -> prog A) (o : option (Z -> A)) : Prop :=
  match o with Some a => together size (map m (ranksOf size)) (map a (ranksOf size)) | None => fails size (map m (ranksOf size)) end.
Lemma ranks_ne size : 1 <= size -> ranksOf size <> [].
Proof. intros H E. pose proof (zlen_zrange 0 (size - 1)) as HL. unfold ranksOf in E. rewrite E in HL. cbn in HL. lia. Qed.
Lemma agrees_iff {A} size (m : Z -> prog A) o : 1 <= size -> agrees size m o ->
  forall rs, together size (map m (ranksOf size)) rs <-> exists a, o = Some a /\ rs = map a (ranksOf size).
Proof.
  intros Hs H rs. assert (Hne : map m (ranksOf size) <> []) by (pose proof (ranks_ne size Hs); destruct (ranksOf size); [contradiction|discriminate]).
  destruct o as [a|]; cbn [agrees] in H.
  - split; [intros T; exists a; split; [reflexivity|eapply together_det; eauto]|intros (a' & E & ->); injection E as <-; exact H].
  - split; [intros T; exfalso; eapply fails_no; eauto|intros (a' & E & _); discriminate].
Qed.
Lemma agrees_ret {A} size (a : Z -> A) : agrees size (fun r => Ret (a r)) (Some a).
Proof. cbn [agrees]. rewrite <- (map_map a Ret). apply allDone. Qed.
Lemma agrees_ext {A} size (m m' : Z -> prog A) o : (forall r, 0 <= r < size -> m r = m' r) -> agrees size m o -> agrees size m' o.
Proof.
  intros HE H. assert (E : map m (ranksOf size) = map m' (ranksOf size)).
  { apply map_ext_in. intros r Hr. apply HE. unfold ranksOf in Hr. apply In_zrange in Hr. lia. }
  unfold agrees in *. rewrite <- E. exact H.
Qed.
Lemma agrees_same {A} size (m : Z -> prog A) (a a' : Z -> A) : (forall r, 0 <= r < size -> a r = a' r) -> agrees size m (Some a) -> agrees size m (Some a').
Proof.
  intros HE H. cbn [agrees] in *. replace (map a' (ranksOf size)) with (map a (ranksOf size)); [exact H|]. apply map_ext_in. intros r Hr. apply HE. unfold ranksOf in Hr. apply In_zrange in Hr. lia.
Qed.
Lemma agrees_fault {A} size : 1 <= size -> agrees size (fun _ => @Fault A) None.
Proof. intros Hs. cbn [agrees]. apply failsFault. pose proof (ranks_ne size Hs). destruct (ranksOf size); [contradiction|left; reflexivity]. Qed.
Lemma agrees_lift {A} size (o : option A) : 1 <= size -> agrees size (fun _ => lift o) (option_map (fun x _ => x) o).
Proof. intros Hs. destruct o; [apply agrees_ret|apply agrees_fault; exact Hs]. Qed.
Lemma combine_ranks {A B} (l : list Z) (f : Z -> A) (g : Z -> B) : combine (map f l) (map g l) = map (fun r => (f r, g r)) l.
Proof. induction l as [|a l IH]; cbn; f_equal; auto. Qed.
Lemma agrees_bind {A B} size (m : Z -> prog A) (a : Z -> A) (f : Z -> A -> prog B) o :
  agrees size m (Some a) -> agrees size (fun r => f r (a r)) o -> agrees size (fun r => pbind (m r) (f r)) o.
Proof.
  intros H1 H2. cbn [agrees] in H1. assert (E : map (fun r => pbind (m r) (f r)) (ranksOf size) = bindAll (map m (ranksOf size)) (map f (ranksOf size))).
  { unfold bindAll. rewrite combine_ranks, map_map. reflexivity. }
  assert (E2 : map (fun r => f r (a r)) (ranksOf size) = applyAll (map f (ranksOf size)) (map a (ranksOf size))).
  { unfold applyAll. rewrite combine_ranks, map_map. reflexivity. }
  unfold agrees in *. rewrite E. rewrite E2 in H2. destruct o as [b|].
  - apply (together_bind size (map m (ranksOf size)) (map a (ranksOf size)) (map f (ranksOf size)) (fun ps => together size ps (map b (ranksOf size)))); auto.
    + intros lks v J T. eapply allJoin; eauto.
    + intros lks v J T. eapply allBcast; eauto.
    + rewrite !map_length. reflexivity.
  - apply (together_bind size (map m (ranksOf size)) (map a (ranksOf size)) (map f (ranksOf size)) (fun ps => fails size ps)); auto.
    + intros lks v J T. eapply failsJoin2; eauto.
    + intros lks v J T. eapply failsBcast2; eauto.
    + rewrite !map_length. reflexivity.
Qed.
Lemma agrees_bind_None {A B} size (m : Z -> prog A) (f : Z -> A -> prog B) : agrees size m None -> agrees size (fun r => pbind (m r) (f r)) None.
Proof.
  intros H. cbn [agrees] in *. replace (map (fun r => pbind (m r) (f r)) (ranksOf size)) with (bindAll (map m (ranksOf size)) (map f (ranksOf size))).
  - apply fails_bind; [exact H|rewrite !map_length; reflexivity].
  - unfold bindAll. rewrite combine_ranks, map_map. reflexivity.
Qed.
(** the same for processes that agree on the result *)
Definition alike {A} (o : option A) : option (Z -> A) := option_map (fun x _ => x) o.
Lemma agrees_then {A B} size (m : Z -> prog A) (o : option A) (f : Z -> A -> prog B) (o' : A -> option (Z -> B)) :
  agrees size m (alike o) -> (forall x, o = Some x -> agrees size (fun r => f r x) (o' x)) -> agrees size (fun r => pbind (m r) (f r)) (x <- o ;; o' x).
Proof.
  intros H1 H2. destruct o as [x|]; cbn [alike option_map obind] in *.
  - eapply agrees_bind; [exact H1|]. apply H2. reflexivity.
  - apply agrees_bind_None. exact H1.
Qed.
Lemma alike_bind {A B} (o : option A) (f : A -> option B) : alike (x <- o ;; f x) = (x <- o ;; alike (f x)).
Proof. destruct o; reflexivity. Qed.

(** ** split, compute and join *)
Lemma omap_None {A B} (f : A -> option B) l : omap f l = None -> exists a, In a l /\ f a = None.
Proof.
  induction l as [|a l IH]; cbn [omap]; intros H; [discriminate|]. destruct (f a) eqn:E; [|exists a; split; [left; reflexivity|exact E]].
  cbn [obind] in H. destruct (omap f l); [discriminate|]. destruct IH as (x & Hx & E'); [reflexivity|]. exists x. split; [right; exact Hx|exact E'].
Qed.
Lemma agrees_rankMap {A} size (f : A -> option Z) (work : list A) : 1 <= size ->
  agrees size (fun r => rankMap r size f work) (alike (mpiMap size f work)).
Proof.
  intros Hs. unfold mpiMap, rankMap. fold (ranksOf size).
  destruct (omap (fun rank => l <- splitOverProcesses size rank work ;; omap f l) (ranksOf size)) as [locals|] eqn:EL; cbn [obind].
  - assert (E : map (fun r => do l <- lift (splitOverProcesses size r work) ;; do local <- lift (omap f l) ;; Join local Ret) (ranksOf size) =
                map (fun lk => Join (fst lk) (snd lk)) (map (fun l => (l, @Ret (list Z))) locals)).
    { rewrite map_map. cbn [fst snd]. revert locals EL. generalize (ranksOf size). induction l as [|r l IH]; intros locals EL; cbn [omap] in EL; [injection EL as <-; reflexivity|].
      destruct (splitOverProcesses size r work) as [w|] eqn:E1; cbn [obind] in EL; [|discriminate]. destruct (omap f w) as [v|] eqn:E2; cbn [obind] in EL; [|discriminate].
      destruct (omap _ l) as [vs|]; [|discriminate]. cbn [obind] in EL. injection EL as <-. cbn [map]. rewrite E1. cbn [lift pbind]. rewrite E2. cbn [lift pbind]. f_equal. apply IH. reflexivity. }
    assert (F : map fst (map (fun l => (l, @Ret (list Z))) locals) = locals) by (rewrite map_map; cbn [fst]; apply map_id).
    assert (L : length locals = length (ranksOf size)) by (apply omap_length in EL; auto).
    unfold agrees. rewrite E. destruct (joinOverProcesses size locals) as [v|] eqn:EJ; cbn [alike option_map].
    + apply allJoin with v; [rewrite F; exact EJ|]. rewrite map_map. cbn [snd]. replace (map (fun _ => Ret v) locals) with (map Ret (map (fun _ : Z => v) (ranksOf size))); [apply allDone|].
      rewrite map_map. clear - L. revert locals L. generalize (ranksOf size). induction l as [|r l IH]; intros [|x xs] L; try discriminate; [reflexivity|]. cbn [map]. f_equal. apply IH. cbn in L. congruence.
    + apply failsJoin. rewrite F. exact EJ.
  - cbn [alike option_map agrees]. apply omap_None in EL. destruct EL as (r & Hr & E). apply failsFault. apply in_map_iff. exists r. split; [|exact Hr].
    destruct (splitOverProcesses size r work) as [w|]; [|reflexivity]. cbn [obind lift pbind] in *. rewrite E. reflexivity.
Qed.

(** ** the matching, the construction of the model and the step *)
Lemma agrees_if {A} size (b : bool) (m m' : Z -> prog A) o o' : (b = true -> agrees size m o) -> (b = false -> agrees size m' o') -> agrees size (fun r => if b then m r else m' r) (if b then o else o').
Proof. destruct b; auto. Qed.
Lemma mpiMap_zlen {A} size (f : A -> option Z) work v : 1 <= size -> mpiMap size f work = Some v -> zlen v = zlen work.
Proof. intros Hs H. rewrite mpiMap_omap in H by exact Hs. apply omap_length in H. unfold zlen. congruence. Qed.
Lemma agrees_matchIndices S m pairs it cf : 1 <= mt_ranks m ->
  agrees (mt_ranks m) (fun r => rankMatchIndices r S m pairs it cf) (alike (matchIndicesWithProcesses S m pairs it cf)).
Proof.
  intros Hs. unfold matchIndicesWithProcesses, rankMatchIndices. rewrite alike_bind. apply agrees_then; [apply agrees_rankMap; exact Hs|].
  intros types E. apply mpiMap_zlen in E; [|exact Hs]. destruct (Z.ltb_spec (zlen types) (zlen pairs)); [lia|]. apply agrees_lift. exact Hs.
Qed.
Lemma agrees_customRates m it cf upd add : 1 <= mt_ranks m ->
  agrees (mt_ranks m) (fun r => rankCustomRates r m it cf upd add) (alike (customRates m it cf upd add)).
Proof.
  intros Hs. unfold customRates, rankCustomRates. cbv zeta. rewrite alike_bind. apply agrees_then; [apply agrees_lift; exact Hs|]. intros xa _.
  rewrite alike_bind. apply agrees_then; [apply agrees_lift; exact Hs|]. intros xu _.
  rewrite alike_bind. apply agrees_then; [apply agrees_rankMap; exact Hs|]. intros rates E. apply mpiMap_zlen in E; [|exact Hs].
  destruct (Z.ltb_spec (zlen (filter isMiss xa ++ filter isMiss xu)) (zlen rates)); [lia|]. apply agrees_lift. exact Hs.
Qed.
Lemma agrees_matching L m it cf indices : 1 <= mt_ranks m ->
  agrees (mt_ranks m) (fun r => rankMatching r L m it cf indices) (alike (calculateMatching L m it cf indices)).
Proof.
  intros Hs. unfold calculateMatching, rankMatching. cbv zeta. rewrite alike_bind. apply agrees_then; [apply agrees_lift; exact Hs|]. intros cf' _.
  rewrite alike_bind. apply agrees_then; [apply agrees_matchIndices; exact Hs|]. intros [[rem upd] add] _.
  rewrite alike_bind. apply agrees_then.
  - destruct (in_custom it); [apply agrees_customRates; exact Hs|apply agrees_ret].
  - intros [[m' upd'] add'] _. apply agrees_lift. exact Hs.
Qed.
Lemma agrees_newModel ranks hash L cf it : 1 <= ranks ->
  agrees ranks (fun r => rankNewModel r ranks hash L cf it) (alike (mkLatticeModel ranks hash L cf it)).
Proof.
  intros Hs. unfold mkLatticeModel, calculateInitialMatching, rankNewModel. cbn [md_lat md_cf md_in md_mt]. cbv zeta.
  destruct (initMatchLists L (maxRange it) cf) as [cf1|]; cbn [obind]; [|apply agrees_bind_None; apply agrees_fault; exact Hs].
  eapply agrees_bind; [apply agrees_ret|]. cbn beta.
  destruct (updateProcessMatchLists L cf1 (clearMatching it)) as [it1|]; cbn [obind]; [|apply agrees_bind_None; apply agrees_fault; exact Hs].
  eapply agrees_bind; [apply agrees_ret|]. cbn beta.
  rewrite alike_bind. pose proof (agrees_matching L (mkMatcher ranks hash (length (cf_coords cf)) (length (in_procs it))) it1 cf1 (zrange 0 (zlen (cf_elements cf1) - 1))) as HM.
  cbn [mt_ranks mkMatcher] in HM. specialize (HM Hs).
  destruct (calculateMatching L (mkMatcher ranks hash (length (cf_coords cf)) (length (in_procs it))) it1 cf1 (zrange 0 (zlen (cf_elements cf1) - 1))) as [[[mt it2] cf2]|]; cbn [obind alike option_map] in *.
  - eapply agrees_bind; [exact HM|]. cbn beta. apply agrees_ret.
  - apply agrees_bind_None. exact HM.
Qed.
Lemma agrees_step md u1 u2 : 1 <= mt_ranks (md_mt md) ->
  agrees (mt_ranks (md_mt md)) (fun r => rankStep r md u1 u2) (alike (singleStep md u1 u2)).
Proof.
  intros Hs. unfold singleStep, rankStep. cbv zeta.
  destruct (pickProcess (md_in md) u1) as [[p_idx it]|]; cbn [obind]; [|apply agrees_bind_None; apply agrees_fault; exact Hs].
  destruct (zget (in_procs it) p_idx) as [p|]; cbn [obind]; [|apply agrees_bind_None; apply agrees_fault; exact Hs].
  destruct (pickSite p u2) as [site|]; cbn [obind]; [|apply agrees_bind_None; apply agrees_fault; exact Hs].
  destruct (performBucketProcess (md_cf md) p site) as [[cf p']|]; cbn [obind]; [|apply agrees_bind_None; apply agrees_fault; exact Hs].
  destruct (zset (in_procs it) p_idx p') as [ps|]; cbn [obind]; [|apply agrees_bind_None; apply agrees_fault; exact Hs].
  eapply agrees_bind; [apply agrees_ret|]. cbn beta iota.
  rewrite alike_bind. apply agrees_then; [apply agrees_matching; exact Hs|]. intros [[mt it''] cf'] _. apply agrees_ret.
Qed.
