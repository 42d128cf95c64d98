(** C74: a run is determined by its settings, and every MPI process makes the same run. *)
From Coq Require Import Lra.
From Verif Require Import PBase SModel PMpi MSpmd PSpmd SRandom PRandom TMpi TTimer XSystems XSpmd.
From Coq Require Import ZifyBool.
Open Scope string_scope.
Open Scope list_scope.
Open Scope Z_scope.

Section C74.
(** any engines *)
Context {E : Type} (seeded : rng -> Z -> E) (canonical : rng -> E -> deviate * E).

(** ** The numbers a run uses *)
(** The run uses the numbers of the chosen engine, seeded with the given seed, from the first on and without leaving any out: each step uses the next
    ones for the clock, then one for the process and one for the site.  With these numbers the run is the timed run of the theorems on the clock and on the chain.
    It ends after the given number of steps, or earlier in a state without available processes. *)
Theorem C74_run fuel n c now md t g x : rc_type c <> DEVICE -> runAlone seeded canonical fuel n c now (Some md) t g = Some x ->
  exists md' t' g' e steps, x = Ran md' t' g' e /\
    allNumbers steps = numbers canonical (rc_type c) (seeded (rc_type c) (usedSeed c now)) (length (allNumbers steps)) /\
    timedRun md t (choiceNumbers steps) (clockNumbers steps) = Some (md', t', []) /\
    (e = AllSteps /\ length steps = n \/ e = NoProcess /\ (length steps < n)%nat /\ totalAvailableSites (md_in md') = 0).
Proof.
  intros Hc H. rewrite runAlone_engine in H by exact Hc. cbn [obind] in H.
  destruct (loopEngine canonical fuel n (rc_type c) md t (seeded (rc_type c) (usedSeed c now))) as [[[[[md' t'] steps] e'] en]|] eqn:EL; [|discriminate].
  cbn [option_map ranOf] in H. injection H as <-. apply loopEngine_numbers in EL. destruct EL as (N & T & F).
  exists md', t', (setEngine (prepared seeded c (usedSeed c now) g) e'), en, steps. split; [reflexivity|]. split; [|split; [|exact F]].
  - specialize (N O). rewrite Nat.add_0_r in N. rewrite N. cbn [numbers]. rewrite app_nil_r. reflexivity.
  - specialize (T []). rewrite app_nil_r in T. exact T.
Qed.

(** ** Same settings, same run *)
(** Whatever the process did before (the generators g and g' are arbitrary: other runs, other seeds, other types), the same type and the same seed give the same run. *)
Theorem C74_reproducible fuel n c now now' start t g g' : rc_type c <> DEVICE -> usedSeed c now = usedSeed c now' ->
  option_map leaves (runAlone seeded canonical fuel n c now start t g) = option_map leaves (runAlone seeded canonical fuel n c now' start t g').
Proof.
  intros Hc HS. rewrite !runAlone_engine by exact Hc. rewrite <- HS. destruct start as [md|]; cbn [obind]; [|reflexivity].
  destruct (loopEngine _ _ _ _ _ _ _) as [[[[[md' t'] steps] e'] en]|]; reflexivity.
Qed.
(** without a time seed the time does not matter *)
Theorem C74_reproducible_any_time fuel n c now now' start t g g' : rc_type c <> DEVICE -> rc_time c = false ->
  option_map leaves (runAlone seeded canonical fuel n c now start t g) = option_map leaves (runAlone seeded canonical fuel n c now' start t g').
Proof. intros Hc HT. apply C74_reproducible; [exact Hc|]. unfold usedSeed. rewrite HT. reflexivity. Qed.

(** ** Every rank makes the run *)
(** The ranks together, each with its own copy of everything, with its own clock (now r) and with its own earlier history of the generators (G r): they all finish
    exactly when the single process does, and what rank r ends with is what the single process with its generators and the master's clock ends with. *)
Theorem C74_ranks ranks hash L cf it fuel n c (now : Z -> Z) t (G : Z -> generators E) rs : 1 <= ranks -> rc_type c <> DEVICE ->
  (together ranks (map (fun r => rankRun r seeded canonical fuel n c (now r) (rankNewModel r ranks hash L cf it) t (G r)) (zrange 0 (ranks - 1))) rs <->
   omap (fun r => runAlone seeded canonical fuel n c (now 0) (mkLatticeModel ranks hash L cf it) t (G r)) (zrange 0 (ranks - 1)) = Some rs).
Proof.
  intros Hs Hc. pose proof (agrees_run seeded canonical fuel n ranks c now (fun r => rankNewModel r ranks hash L cf it) (mkLatticeModel ranks hash L cf it) t G Hs Hc
    (agrees_newModel ranks hash L cf it Hs) (fun md H => mkLatticeModel_ranks _ _ _ _ _ _ H)) as HA.
  pose proof (agrees_iff _ _ _ Hs HA rs) as HI. fold (ranksOf ranks). rewrite HI. clear HI HA.
  set (o := md <- mkLatticeModel ranks hash L cf it ;; loopEngine canonical fuel n (rc_type c) md t (seeded (rc_type c) (usedSeed c (now 0)))).
  assert (EO : omap (fun r => runAlone seeded canonical fuel n c (now 0) (mkLatticeModel ranks hash L cf it) t (G r)) (ranksOf ranks) =
               omap (fun r => option_map (ranOf (prepared seeded c (usedSeed c (now 0)) (G r))) o) (ranksOf ranks)).
  { apply omap_ext. intros r _. apply runAlone_engine. exact Hc. }
  rewrite EO. clear EO. destruct o as [x|]; cbn [option_map].
  - assert (EM : forall l, omap (fun r => Some (ranOf (prepared seeded c (usedSeed c (now 0)) (G r)) x)) l = Some (map (fun r => ranOf (prepared seeded c (usedSeed c (now 0)) (G r)) x) l)).
    { induction l as [|r l IH]; [reflexivity|]. cbn [omap map obind]. rewrite IH. reflexivity. }
    rewrite EM. split; [intros (a & E1 & ->); injection E1 as <-; reflexivity|intros E1; injection E1 as <-; eexists; split; reflexivity].
  - split; [intros (a & E1 & _); discriminate|]. intros H. exfalso. pose proof (ranks_ne ranks Hs). destruct (ranksOf ranks); [contradiction|discriminate].
Qed.
(** the same for a further run with the models of an earlier one *)
Theorem C74_ranks_again fuel n c (now : Z -> Z) md t (G : Z -> generators E) rs : 1 <= mt_ranks (md_mt md) -> rc_type c <> DEVICE ->
  (together (mt_ranks (md_mt md)) (map (fun r => rankRun r seeded canonical fuel n c (now r) (Ret md) t (G r)) (zrange 0 (mt_ranks (md_mt md) - 1))) rs <->
   omap (fun r => runAlone seeded canonical fuel n c (now 0) (Some md) t (G r)) (zrange 0 (mt_ranks (md_mt md) - 1)) = Some rs).
Proof.
  intros Hs Hc. set (ranks := mt_ranks (md_mt md)) in *.
  pose proof (agrees_run seeded canonical fuel n ranks c now (fun _ => Ret md) (Some md) t G Hs Hc (agrees_ret ranks (fun _ => md)) (fun md' H => f_equal (fun m => mt_ranks (md_mt m)) (eq_sym (f_equal (fun o => match o with Some m => m | None => md end) H)))) as HA.
  pose proof (agrees_iff _ _ _ Hs HA rs) as HI. fold (ranksOf ranks). rewrite HI. clear HI HA. cbn [obind].
  set (o := loopEngine canonical fuel n (rc_type c) md t (seeded (rc_type c) (usedSeed c (now 0)))).
  assert (EO : omap (fun r => runAlone seeded canonical fuel n c (now 0) (Some md) t (G r)) (ranksOf ranks) =
               omap (fun r => option_map (ranOf (prepared seeded c (usedSeed c (now 0)) (G r))) o) (ranksOf ranks)).
  { apply omap_ext. intros r _. rewrite runAlone_engine by exact Hc. reflexivity. }
  rewrite EO. clear EO. destruct o as [x|]; cbn [option_map].
  - assert (EM : forall l, omap (fun r => Some (ranOf (prepared seeded c (usedSeed c (now 0)) (G r)) x)) l = Some (map (fun r => ranOf (prepared seeded c (usedSeed c (now 0)) (G r)) x) l)).
    { induction l as [|r l IH]; [reflexivity|]. cbn [omap map obind]. rewrite IH. reflexivity. }
    rewrite EM. split; [intros (a & E1 & ->); injection E1 as <-; reflexivity|intros E1; injection E1 as <-; eexists; split; reflexivity].
  - split; [intros (a & E1 & _); discriminate|]. intros H. exfalso. pose proof (ranks_ne ranks Hs). destruct (ranksOf ranks); [contradiction|discriminate].
Qed.

Lemma loopEngine_rerank k fuel n ty : 1 <= k -> forall md t e, 1 <= mt_ranks (md_mt md) ->
  loopEngine canonical fuel n ty (rerankM k md) t e = option_map (fun x => let '(md', t', ss, e', en) := x in (rerankM k md', t', ss, e', en)) (loopEngine canonical fuel n ty md t e).
Proof.
  intros Hk. induction n as [|n IH]; intros md t e Hm; cbn [loopEngine]; [reflexivity|]. change (md_in (rerankM k md)) with (md_in md).
  destruct (totalAvailableSites (md_in md) =? 0); [reflexivity|]. destruct (totalRate (md_in md)) as [rate|]; cbn [obind]; [|reflexivity].
  destruct (propagateEngine canonical fuel ty (IZR rate) t e) as [[[t1 cs] e1]|]; cbn [obind fst snd]; [|reflexivity].
  rewrite singleStep_rerank by assumption. destruct (singleStep md _ _) as [md1|] eqn:ES; cbn [obind option_map]; [|reflexivity].
  rewrite IH by (rewrite (singleStep_ranks _ _ _ _ ES); exact Hm). destruct (loopEngine canonical fuel n ty md1 t1 _) as [[[[[md' t'] ss] e'] en]|]; reflexivity.
Qed.
(** The number of ranks does not matter: all ranks end with the configuration, the events, the time and the ending of the run on a single process, whatever its generators were;
    and if the run on a single process ends, the ranks do not wait for each other forever. *)
Theorem C74_like_one_process ranks hash L cf it fuel n c (now : Z -> Z) t (G : Z -> generators E) g : 1 <= ranks -> rc_type c <> DEVICE ->
  (forall rs, together ranks (map (fun r => rankRun r seeded canonical fuel n c (now r) (rankNewModel r ranks hash L cf it) t (G r)) (zrange 0 (ranks - 1))) rs ->
     zlen rs = ranks /\
     exists md t' g' e, runAlone seeded canonical fuel n c (now 0) (mkLatticeModel 1 hash L cf it) t g = Some (Ran md t' g' e) /\
       forall x, In x rs -> exists md1 g1, x = Ran md1 t' g1 e /\ md_cf md1 = md_cf md /\ md_in md1 = md_in md) /\
  (runAlone seeded canonical fuel n c (now 0) (mkLatticeModel 1 hash L cf it) t g <> None ->
     exists rs, together ranks (map (fun r => rankRun r seeded canonical fuel n c (now r) (rankNewModel r ranks hash L cf it) t (G r)) (zrange 0 (ranks - 1))) rs).
Proof.
  intros Hs Hc.
  assert (EE : forall g0, runAlone seeded canonical fuel n c (now 0) (mkLatticeModel ranks hash L cf it) t g0 =
     option_map (fun x : model * double * list stepNumbers * E * ending => let '(md, t, ss, e, en) := x in ranOf (prepared seeded c (usedSeed c (now 0)) g0) (rerankM ranks md, t, ss, e, en))
       (md <- mkLatticeModel 1 hash L cf it ;; loopEngine canonical fuel n (rc_type c) md t (seeded (rc_type c) (usedSeed c (now 0))))).
  { intros g0. rewrite runAlone_engine by exact Hc. rewrite (mkLatticeModel_rerank ranks 1) by lia. destruct (mkLatticeModel 1 hash L cf it) as [md|] eqn:EM; cbn [obind option_map]; [|reflexivity].
    rewrite loopEngine_rerank by (try exact Hs; apply mkLatticeModel_ranks in EM; rewrite EM; lia). destruct (loopEngine _ _ _ _ _ _ _) as [[[[[md' t'] ss] e'] en]|]; reflexivity. }
  assert (E1 : runAlone seeded canonical fuel n c (now 0) (mkLatticeModel 1 hash L cf it) t g =
     option_map (ranOf (prepared seeded c (usedSeed c (now 0)) g)) (md <- mkLatticeModel 1 hash L cf it ;; loopEngine canonical fuel n (rc_type c) md t (seeded (rc_type c) (usedSeed c (now 0))))).
  { apply runAlone_engine. exact Hc. }
  rewrite E1. destruct (md <- mkLatticeModel 1 hash L cf it ;; loopEngine canonical fuel n (rc_type c) md t (seeded (rc_type c) (usedSeed c (now 0)))) as [[[[[md' t'] ss] e'] en]|]; cbn [option_map] in *.
  - assert (EM : forall l, omap (fun r => runAlone seeded canonical fuel n c (now 0) (mkLatticeModel ranks hash L cf it) t (G r)) l =
       Some (map (fun r => ranOf (prepared seeded c (usedSeed c (now 0)) (G r)) (rerankM ranks md', t', ss, e', en)) l)).
    { induction l as [|r l IH]; [reflexivity|]. cbn [omap map]. rewrite EE, IH. reflexivity. }
    split.
    + intros rs HT. apply C74_ranks in HT; [|exact Hs|exact Hc]. rewrite EM in HT. injection HT as <-. split; [unfold zlen; rewrite map_length; change (zlen (zrange 0 (ranks - 1)) = ranks); rewrite zlen_zrange; lia|].
      cbn [ranOf]. do 4 eexists. split; [reflexivity|]. intros x Hx. apply in_map_iff in Hx. destruct Hx as (r & <- & _). do 2 eexists. split; [reflexivity|]. split; reflexivity.
    + intros _. eexists. apply C74_ranks; [exact Hs|exact Hc|]. apply EM.
  - split; [|intros H; contradiction]. intros rs HT. exfalso. apply C74_ranks in HT; [|exact Hs|exact Hc]. pose proof (ranks_ne ranks Hs) as HN. unfold ranksOf in HN. destruct (zrange 0 (ranks - 1)) as [|r l]; [contradiction|].
    cbn [omap] in HT. rewrite EE in HT. discriminate.
Qed.
End C74.


(** ** A concrete case: system 1 with a toy engine, two steps, on a single process and on three ranks *)
Definition toySeed (ty : rng) (s : Z) : Z := match ty with MT => s | MINSTD => 2 * s + 1 | RANLUX24 => 3 * s | _ => 5 * s end.
Definition toyNext (ty : rng) (e : Z) : deviate * Z := (mkDev (1 + e mod 1000) 1002, (1103 * e + 12347) mod 100003).
Definition someGens (k : Z) : generators Z := mkGen DEVICE k (k + 1) (k + 2) (k + 3) (fun n => mkDev (Z.of_nat n mod 3) 3) false.
Definition toyControl : rngControl := mkRngControl MINSTD true 17.
(** the numbers of the toy engine lie strictly between 0 and 1, so the clock takes one number *)
Lemma toyUnit e ty : (0 < realOf (fst (toyNext ty e)) < 1)%R.
Proof.
  unfold toyNext, realOf. cbn [fst dv_num dv_den]. pose proof (Z.mod_pos_bound e 1000 ltac:(lia)) as B.
  assert (B1 : (0 < IZR (1 + e mod 1000))%R) by (apply IZR_lt; lia). assert (B2 : (IZR (1 + e mod 1000) < 1002)%R) by (apply IZR_lt; lia). lra.
Qed.
Lemma clockTakesOne {E} (canonical : rng -> E -> deviate * E) fuel ty rate t e : (0 < realOf (fst (canonical ty e)) < 1)%R -> (0 < rate)%R ->
  propagateEngine canonical (S fuel) ty rate (DFin t) e = Some (DFin (t + - ln (realOf (fst (canonical ty e))) / rate), [fst (canonical ty e)], snd (canonical ty e)).
Proof.
  intros Hu Hr. cbn [propagateEngine]. unfold dlog. destruct (Req_EM_T _ 0); [lra|]. destruct (Rlt_dec _ 0); [lra|]. cbn [dneg ddiv]. destruct (Req_EM_T rate 0); [lra|]. reflexivity.
Qed.
(** the run without the clock, in numbers that can be computed *)
Fixpoint toyLoop (n : nat) (ty : rng) (md : model) (e : Z) : option model :=
  match n with
  | O => Some md
  | S n' =>
      if totalAvailableSites (md_in md) =? 0 then None
      else rate <- totalRate (md_in md) ;;
           if rate <=? 0 then None
           else let e1 := snd (toyNext ty e) in let e2 := snd (toyNext ty e1) in
                md' <- singleStep md (fst (toyNext ty e1)) (fst (toyNext ty e2)) ;; toyLoop n' ty md' (snd (toyNext ty e2))
  end.
Lemma toyLoop_loop fuel n ty : forall md t e md', toyLoop n ty md e = Some md' -> exists t' ss e', loopEngine toyNext (S fuel) n ty md (DFin t) e = Some (md', DFin t', ss, e', AllSteps).
Proof.
  induction n as [|n IH]; intros md t e md' H; cbn [toyLoop] in H.
  - injection H as <-. exists t, [], e. reflexivity.
  - cbn [loopEngine]. destruct (totalAvailableSites (md_in md) =? 0); [discriminate|]. ob H as rate ER. rewrite ER. cbn [obind]. destruct (Z.leb_spec rate 0); [discriminate|]. cbv zeta in H. ob H as md1 ES.
    rewrite clockTakesOne; [|apply toyUnit|apply IZR_lt; lia]. cbn [obind fst snd]. rewrite ES. cbn [obind].
    destruct (IH md1 (t + - ln (realOf (fst (toyNext ty e))) / IZR rate)%R _ _ H) as (t' & ss & e' & EL). rewrite EL. cbn [obind]. do 3 eexists. reflexivity.
Qed.
Definition x74Check : bool :=
  somewhere x1cf (fun cf => somewhere x1in (fun it => somewhere (mkLatticeModel 1 xhash x1L cf it) (fun md =>
    somewhere (toyLoop 2 MINSTD md (toySeed MINSTD 1017)) (fun md' => if list_eq_dec (list_eq_dec Z.eq_dec) (cf_types (md_cf md)) (cf_types (md_cf md')) then false else true)))).

Lemma x74_ok : x74Check = true. Proof. vm_compute. reflexivity. Qed.
Strategy expand [x74Check].
(** The clock of the master shows 1000, so the seed is 1017.  The other ranks have other clocks and all have used their generators before. *)
Example C74_example : exists cf it md0 md t' g' rs, x1cf = Some cf /\ x1in = Some it /\ mkLatticeModel 1 xhash x1L cf it = Some md0 /\ cf_types (md_cf md) <> cf_types (md_cf md0) /\
  runAlone toySeed toyNext 5 2 toyControl 1000 (mkLatticeModel 1 xhash x1L cf it) (DFin 0) (someGens 8) = Some (Ran md (DFin t') g' AllSteps) /\
  together 3 (map (fun r => rankRun r toySeed toyNext 5 2 toyControl (1000 + r) (rankNewModel r 3 xhash x1L cf it) (DFin 0) (someGens r)) (zrange 0 2)) rs /\
  zlen rs = 3 /\ forall x, In x rs -> exists md1 g1, x = Ran md1 (DFin t') g1 AllSteps /\ md_cf md1 = md_cf md /\ md_in md1 = md_in md.
Proof.
  pose proof x74_ok as H. unfold x74Check in H. apply somewhere_Some in H. destruct H as (cf & E1 & H). apply somewhere_Some in H. destruct H as (it & E2 & H).
  apply somewhere_Some in H. destruct H as (md0 & E3 & H). apply somewhere_Some in H. destruct H as (md & E4 & H). destruct (list_eq_dec (list_eq_dec Z.eq_dec) (cf_types (md_cf md0)) (cf_types (md_cf md))) as [|HN]; [discriminate|].
  destruct (toyLoop_loop 4 2 MINSTD md0 0 _ _ E4) as (t' & ss & e' & EL).
  assert (ER : runAlone toySeed toyNext 5 2 toyControl 1000 (mkLatticeModel 1 xhash x1L cf it) (DFin 0) (someGens 8) = Some (ranOf (prepared toySeed toyControl 1017 (someGens 8)) (md, DFin t', ss, e', AllSteps))).
  { rewrite runAlone_engine by discriminate. rewrite E3. cbn [obind]. change (rc_type toyControl) with MINSTD. change (usedSeed toyControl 1000) with 1017. rewrite EL. reflexivity. }
  destruct (C74_like_one_process toySeed toyNext 3 xhash x1L cf it 5 2 toyControl (fun r => 1000 + r) (DFin 0) someGens (someGens 8) ltac:(lia) ltac:(discriminate)) as [C1 C2].
  change (1000 + 0) with 1000 in *. rewrite ER in *. destruct (C2 ltac:(discriminate)) as [rs HT]. destruct (C1 rs HT) as (HL & md2 & t2 & g2 & e2 & EQ & HX). cbn [ranOf] in EQ. injection EQ as <- <- <- <-.
  exists cf, it, md0, md, t', (setEngine (prepared toySeed toyControl 1017 (someGens 8)) e'), rs. split; [exact E1|]. split; [exact E2|]. split; [exact E3|]. split; [congruence|]. split; [exact ER|]. split; [exact HT|]. split; [exact HL|exact HX].
Qed.

(** ** With DEVICE the ranks go different ways *)
(** Two ranks, one step, each rank with the numbers of its own random device.  Both runs end without any error.  Afterwards rank 0, which writes the trajectory, shows A, A, B and rank 1 shows A, A, C;
    and because the ranks share the matching, rank 0 lists the process C -> A at the site that holds B, and does not list B -> A there. *)
Definition xdGens (r : Z) : generators unit := mkGen MT tt tt tt tt (xdDevice r) true.
Definition xdControl : rngControl := mkRngControl DEVICE false 0.
Definition xdCheck : bool :=
  somewhere xdcf (fun cf => somewhere xdin (fun it => somewhere (mkLatticeModel 2 xhash xdL cf it) (fun md =>
    negb (totalAvailableSites (md_in md) =? 0) && somewhere (totalRate (md_in md)) (fun rate => 0 <? rate) &&
    somewhere (runAll 5 2 (map (fun r => rankStep r md (xdDevice r 1) (xdDevice r 2)) [0; 1])) (fun rs => match rs with
      | [a; b] => (if list_eq_dec (list_eq_dec string_dec) (cf_elements (md_cf a)) [["A"]; ["A"]; ["B"]] then true else false) &&
                  (if list_eq_dec (list_eq_dec string_dec) (cf_elements (md_cf b)) [["A"]; ["A"]; ["C"]] then true else false) && listedb a 3 2 && negb (listedb a 2 2)
      | _ => false end)))).
Lemma xd_ok : xdCheck = true. Proof. vm_compute. reflexivity. Qed.
Strategy expand [xdCheck].
Lemma deviceClock rate t g : g_type g = DEVICE -> (0 < realOf (g_device g O) < 1)%R -> (0 < rate)%R ->
  propagateDrawn (fun _ (e : unit) => (mkDev 0 1, e)) 1 rate (DFin t) g = Some (DFin (t + - ln (realOf (g_device g O)) / rate), snd (randomDouble01 (fun _ (e : unit) => (mkDev 0 1, e)) g)).
Proof.
  intros Hg Hu Hr. cbn [propagateDrawn]. unfold randomDouble01. rewrite Hg. cbn [snd]. unfold dlog. destruct (Req_EM_T _ 0); [lra|]. destruct (Rlt_dec _ 0); [lra|]. cbn [dneg ddiv]. destruct (Req_EM_T rate 0); [lra|]. reflexivity.
Qed.
Theorem C74_device_refuted : exists cf it ma mb t' ga gb, xdcf = Some cf /\ xdin = Some it /\
  together 2 (map (fun r => rankRun r (fun _ _ => tt) (fun _ e => (mkDev 0 1, e)) 1 1 xdControl 0 (rankNewModel r 2 xhash xdL cf it) (DFin 0) (xdGens r)) (zrange 0 1))
    [Ran ma t' ga AllSteps; Ran mb t' gb AllSteps] /\
  cf_elements (md_cf ma) = [["A"]; ["A"]; ["B"]] /\ cf_elements (md_cf mb) = [["A"]; ["A"]; ["C"]] /\ listedb ma 3 2 = true /\ listedb ma 2 2 = false.
Proof.
  pose proof xd_ok as H. unfold xdCheck in H. apply somewhere_Some in H. destruct H as (cf & E1 & H). apply somewhere_Some in H. destruct H as (it & E2 & H).
  apply somewhere_Some in H. destruct H as (md & E3 & H). rewrite !andb_true_iff in H. destruct H as [[H1 H2] H]. apply negb_true_iff in H1. apply somewhere_Some in H2. destruct H2 as (rate & ER & HR).
  apply somewhere_Some in H. destruct H as (rs & E4 & H). destruct rs as [|ma [|mb [|? ?]]]; try discriminate. rewrite !andb_true_iff in H. destruct H as [[[H3 H4] H5] H6]. apply negb_true_iff in H6.
  destruct (list_eq_dec (list_eq_dec string_dec) (cf_elements (md_cf ma)) [["A"]; ["A"]; ["B"]]) as [H3'|]; [|discriminate]. destruct (list_eq_dec (list_eq_dec string_dec) (cf_elements (md_cf mb)) [["A"]; ["A"]; ["C"]]) as [H4'|]; [|discriminate].
  set (canon := fun (_ : rng) (e : unit) => (mkDev 0 1, e)). set (dt := (0 + - ln (realOf (dev 1 2)) / IZR rate)%R).
  set (gAfter := fun r => snd (randomDouble01 canon (snd (randomDouble01 canon (snd (randomDouble01 canon (mkGen DEVICE tt tt tt tt (xdDevice r) true))))))).
  exists cf, it, ma, mb, (DFin dt), (gAfter 0), (gAfter 1). split; [exact E1|]. split; [exact E2|]. split; [|auto].
  assert (HA : agrees 2 (fun r => rankRun r (fun _ _ => tt) canon 1 1 xdControl 0 (rankNewModel r 2 xhash xdL cf it) (DFin 0) (xdGens r)) (Some (fun r => Ran (if r =? 0 then ma else mb) (DFin dt) (gAfter r) AllSteps))).
  { unfold rankRun. cbn [setRngType rc_type xdControl isDevice g_entropy xdGens rc_time rc_seed rankSeed].
    eapply agrees_bind; [apply agrees_ret|]. cbn beta. eapply agrees_bind; [pose proof (agrees_newModel 2 xhash xdL cf it ltac:(lia)) as HN; rewrite E3 in HN; exact HN|]. cbn beta.
    eapply agrees_bind with (a := fun r => (if r =? 0 then ma else mb, DFin dt, gAfter r, AllSteps)); [|cbn beta; apply agrees_ret].
    cbn [rankLoop]. rewrite H1, ER. cbn [obind]. set (g0 := fun r => mkGen DEVICE tt tt tt tt (xdDevice r) true).
    eapply agrees_bind with (a := fun r => (DFin dt, snd (randomDouble01 canon (g0 r)))).
    - eapply agrees_ext; [|apply agrees_ret]. intros r _. change (seedEngine _ 0 _) with (g0 r). unfold canon. rewrite deviceClock; [reflexivity|reflexivity| |apply IZR_lt; lia].
      change (g_device (g0 r) 0) with (dev 1 2). unfold realOf. cbn. lra.
    - cbn [snd fst]. cbn [randomDouble01 g_type g0 g_device].
      eapply agrees_bind with (a := fun r => if r =? 0 then ma else mb); [|cbn beta; apply agrees_ret].
      cbn [agrees]. change (ranksOf 2) with [0; 1]. cbn [map]. change (0 =? 0) with true. change (1 =? 0) with false. cbn iota. apply runAll_sound with 5%nat. exact E4. }
  cbn [agrees] in HA. exact HA.
Qed.

Print Assumptions C74_run.
Print Assumptions C74_reproducible.
Print Assumptions C74_reproducible_any_time.
Print Assumptions C74_ranks.
Print Assumptions C74_ranks_again.
Print Assumptions C74_like_one_process.
Print Assumptions C74_device_refuted.
