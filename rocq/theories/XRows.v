(** Checkers and concrete systems for simulations given by rows. *)
From Verif Require Import PBase SModel SGeo SEvent SBuild SPlain SStep SBucket PEvent PBuild PPlain PRow PStepInv PBucket PGeo XCheck XSystems.
Open Scope list_scope.
Open Scope string_scope.
Open Scope Z_scope.

(** origins and vectors of the rows that move *)
Definition mvs (rows : list row) : list (Z * coord) :=
  flat_map (fun ir => match rw_move (snd ir) with Some v => [(fst ir, v)] | None => [] end) (combine (zrange 0 (zlen rows - 1)) rows).
Lemma mvs_In rows i v : In (i, v) (mvs rows) <-> exists r, zget rows i = Some r /\ rw_move r = Some v.
Proof.
  unfold mvs. rewrite in_flat_map. split.
  - intros ([j r] & Hin & H). cbn [fst snd] in H. destruct (rw_move r) as [w|] eqn:E; [|destruct H]. destruct H as [H|[]]. inversion H; subst. apply In_zget in Hin. destruct Hin as [k Ek]. apply combine_get in Ek.
    destruct Ek as [E1 E2]. apply zget_range in E1 as Hk. rewrite zlen_zrange in Hk. rewrite zget_zrange in E1 by lia. exists r. split; [|exact E]. assert (k = i) by (inversion E1; lia). subst k. exact E2.
  - intros (r & Er & Ev). exists (i, r). cbn [fst snd]. rewrite Ev. split; [|left; reflexivity]. apply (zget_In _ i). apply combine_get. apply zget_range in Er as Hr. rewrite zget_zrange by lia. rewrite Z.add_0_l. auto.
Qed.
Lemma mvs_nodup rows : NoDup (map fst (mvs rows)).
Proof.
  unfold mvs. assert (G : forall rs (l : list Z), NoDup l -> NoDup (map fst (flat_map (fun ir : Z * row => match rw_move (snd ir) with Some v => [(fst ir, v)] | None => [] end) (combine l rs)))).
  { induction rs as [|r rs IH]; intros [|i l] ND; try constructor. inversion ND as [|? ? Hn ND']; subst. cbn [combine flat_map fst snd]. destruct (rw_move r); cbn [app map fst]; [|apply IH; exact ND'].
    constructor; [|apply IH; exact ND']. intros Hin. apply Hn. apply in_map_iff in Hin. destruct Hin as ([j v] & E & Hin). cbn in E. subst j. apply in_flat_map in Hin. destruct Hin as ([j r'] & H1 & H2). cbn [fst snd] in H2.
    destruct (rw_move r'); [|destruct H2]. destruct H2 as [H2|[]]. inversion H2; subst. apply in_combine_l in H1. exact H1. }
  apply G. apply NoDup_zrange.
Qed.
Lemma mvs_given rows : movesGiven rows (map fst (mvs rows)) (map snd (mvs rows)).
Proof.
  split; [rewrite !zlen_map; reflexivity|]. split; [apply mvs_nodup|]. split.
  - intros o Ho. apply in_map_iff in Ho. destruct Ho as ([i v] & E & Hin). cbn in E. subst i. apply mvs_In in Hin. destruct Hin as (r & Er & _). eapply zget_range; eauto.
  - intros i r v Er. split.
    + intros Ev. assert (Hin : In (i, v) (mvs rows)) by (apply mvs_In; eauto). apply In_zget in Hin. destruct Hin as [k Ek]. exists k. rewrite !zget_map, Ek. auto.
    + intros (k & E1 & E2). rewrite zget_map in E1. rewrite zget_map in E2. destruct (zget (mvs rows) k) as [[i' v']|] eqn:Ek; [|discriminate]. cbn in E1, E2. inversion E1; inversion E2; subst.
      apply zget_In in Ek. apply mvs_In in Ek. destruct Ek as (r' & Er' & Ev'). congruence.
Qed.

(** build a process from its rows; [cutoff] only for custom rates *)
Record xspec := mkXS { xs_spec : pspec; xs_basis : list Z; xs_rate : Z; xs_custom : option (Z * bool) }.
Definition buildSpec (S : Z) (pt : tmap) (xs : xspec) (number : Z) : option process :=
  match xs_spec xs with
  | Plain rows =>
      f <- mkConfiguration (map rw_c rows) (map (fun r => [rw_before r]) rows) pt ;;
      s <- mkConfiguration (map rw_c rows) (map (fun r => [rw_after r]) rows) pt ;;
      match xs_custom xs with
      | None => mkProcess S f s (xs_rate xs) (xs_basis xs) (map fst (mvs rows)) (map snd (mvs rows)) number
      | Some (cut, cache) => mkCustomProcess S f s (xs_rate xs) (xs_basis xs) cut (map fst (mvs rows)) (map snd (mvs rows)) number cache
      end
  | Bucket rows =>
      f <- mkConfiguration (map br_c rows) (map br_before rows) pt ;;
      match xs_custom xs with
      | None => mkProcess S f (setUpdateInfo f (map br_upd rows)) (xs_rate xs) (xs_basis xs) [] [] number
      | Some (cut, cache) => mkCustomProcess S f (setUpdateInfo f (map br_upd rows)) (xs_rate xs) (xs_basis xs) cut [] [] number cache
      end
  end.
Fixpoint nodupS (l : list string) : bool := match l with [] => true | a :: l' => negb (existsb (String.eqb a) l') && nodupS l' end.
Lemma nodupS_sound l : nodupS l = true -> NoDup l.
Proof.
  induction l as [|a l IH]; intros H; constructor; cbn [nodupS] in H; apply andb_true_iff in H; destruct H as [H1 H2]; [|auto].
  intros Hin. apply negb_true_iff in H1. assert (existsb (String.eqb a) l = true); [|congruence]. apply existsb_exists. exists a. split; [exact Hin|apply String.eqb_refl].
Qed.
Definition wfRowsb (rows : list row) : bool :=
  nodupb ceqb (map rw_c rows) && forallb (fun r => Bool.eqb (String.eqb (rw_before r) "*") (String.eqb (rw_after r) "*")) rows.
Definition wfBRowsb (rows : list brow) : bool :=
  negb (zlen rows =? 0) && forallb (fun r => nodupS (map fst (br_upd r)) && match tfind (br_upd r) "*" with None => true | _ => false end) rows.
Definition specOKb (sp : pspec) : bool := match sp with Plain rows => wfRowsb rows | Bucket rows => wfBRowsb rows end.
Lemma wfRowsb_sound rows : wfRowsb rows = true -> wfRows rows.
Proof.
  unfold wfRowsb. rewrite andb_true_iff. intros [H1 H2]. split; [eapply nodupb_sound; [apply ceqb_refl|exact H1]|].
  intros r Hr. rewrite forallb_forall in H2. specialize (H2 r Hr). apply Bool.eqb_prop in H2. destruct (String.eqb_spec (rw_before r) "*"), (String.eqb_spec (rw_after r) "*"); try discriminate; tauto.
Qed.
Lemma wfBRowsb_sound rows : wfBRowsb rows = true -> wfBRows rows.
Proof.
  unfold wfBRowsb. rewrite andb_true_iff. intros [H1 H2]. split; [destruct rows; [discriminate|congruence]|].
  intros r Hr. rewrite forallb_forall in H2. specialize (H2 r Hr). apply andb_true_iff in H2. destruct H2 as [H2 H3]. split; [apply nodupS_sound; exact H2|]. destruct (tfind (br_upd r) "*"); [discriminate|reflexivity].
Qed.
Lemma buildSpec_sound S pt xs number p : specOKb (xs_spec xs) = true -> buildSpec S pt xs number = Some p -> builtFrom S pt (xs_spec xs) p.
Proof.
  intros HO H. unfold buildSpec in H. unfold builtFrom. destruct (xs_spec xs) as [rows|rows]; cbn [specOKb] in HO.
  - split; [apply wfRowsb_sound; exact HO|]. exists (xs_basis xs). ob H as f Ef. ob H as s Es. exists f, s, (map fst (mvs rows)), (map snd (mvs rows)), (xs_rate xs), number. split; [exact Ef|]. split; [exact Es|].
    split; [apply mvs_given|]. destruct (xs_custom xs) as [[cut cache]|]; [right; eauto|left; exact H].
  - split; [apply wfBRowsb_sound; exact HO|]. exists (xs_basis xs). ob H as f Ef. exists f, (xs_rate xs), number. split; [exact Ef|]. destruct (xs_custom xs) as [[cut cache]|]; [right; eauto|left; exact H].
Qed.
Definition buildAll (S : Z) (pt : tmap) (xs : list xspec) : option (list process) :=
  omap (fun ix : Z * xspec => buildSpec S pt (snd ix) (fst ix)) (combine (zrange 0 (zlen xs - 1)) xs).
Definition specOf (xs : list xspec) (i : Z) : pspec := match zget xs i with Some x => xs_spec x | None => Plain [] end.
Lemma buildAll_get S pt xs ps i p : buildAll S pt xs = Some ps -> zget ps i = Some p -> exists x, zget xs i = Some x /\ buildSpec S pt x i = Some p.
Proof.
  intros H Ei. pose proof (omap_zget _ _ _ i H) as E. rewrite Ei in E. symmetry in E. ob E as ix Eix. destruct ix as [j x]. apply combine_get in Eix. destruct Eix as [E1 E2]. cbn [fst snd] in E.
  exists x. split; [exact E2|]. apply zget_range in E2 as Hr. rewrite zget_zrange in E1 by lia. assert (j = i) by (inversion E1; lia). subst j. exact E.
Qed.

(** tables of types *)
Fixpoint removeOne {A} (eqb : A -> A -> bool) (a : A) (l : list A) : option (list A) :=
  match l with [] => None | b :: l' => if eqb a b then Some l' else option_map (cons b) (removeOne eqb a l') end.
Fixpoint permb {A} (eqb : A -> A -> bool) (l m : list A) : bool :=
  match l with [] => match m with [] => true | _ => false end | a :: l' => match removeOne eqb a m with Some m' => permb eqb l' m' | None => false end end.
Lemma removeOne_perm {A} (eqb : A -> A -> bool) (H : forall a b, eqb a b = true -> a = b) a l : forall m, removeOne eqb a l = Some m -> Permutation (a :: m) l.
Proof.
  induction l as [|b l IH]; intros m E; [discriminate|]. cbn [removeOne] in E. destruct (eqb a b) eqn:Eq.
  - inversion E; subst. apply H in Eq. subst. apply Permutation_refl.
  - destruct (removeOne eqb a l) as [m'|]; [|discriminate]. cbn in E. inversion E; subst. eapply Permutation_trans; [apply perm_swap|]. apply perm_skip. apply IH. reflexivity.
Qed.
Lemma permb_sound {A} (eqb : A -> A -> bool) (H : forall a b, eqb a b = true -> a = b) l : forall m, permb eqb l m = true -> Permutation l m.
Proof.
  induction l as [|a l IH]; intros m E; cbn [permb] in E; [destruct m; [constructor|discriminate]|]. destruct (removeOne eqb a m) as [m'|] eqn:Er; [|discriminate].
  eapply Permutation_trans; [apply perm_skip; apply IH; exact E|]. apply (removeOne_perm eqb H). exact Er.
Qed.
Definition wfPTb (pt : tmap) : bool :=
  nodupS (map fst pt) && permb Z.eqb (map snd pt) (zrange 0 (zlen pt - 1)) && match tfind pt "*" with Some n => n =? 0 | None => false end.
Lemma wfPTb_sound pt : wfPTb pt = true -> wfPT pt.
Proof.
  unfold wfPTb. rewrite !andb_true_iff. intros [[H1 H2] H3]. split; [apply nodupS_sound; exact H1|]. split; [apply (permb_sound Z.eqb); [apply Z.eqb_eq|exact H2]|].
  destruct (tfind pt "*") as [n|]; [|discriminate]. apply Z.eqb_eq in H3. congruence.
Qed.
Definition movesPermuteb (rows : list row) : bool := permb ceqb (map snd (movers rows)) (map fst (movers rows)).
Lemma movesPermuteb_sound rows : movesPermuteb rows = true -> movesPermute rows.
Proof. apply (permb_sound ceqb). apply ceqb_eq. Qed.
Definition fitsb (L : lattice) (R : Z) : bool :=
  (negb (lt_pa L) || (2 * R + 1 <=? lt_ra L)) && (negb (lt_pb L) || (2 * R + 1 <=? lt_rb L)) && (negb (lt_pc L) || (2 * R + 1 <=? lt_rc L)).
Lemma fitsb_sound L R : fitsb L R = true -> fits L R.
Proof.
  unfold fitsb, fits. rewrite !andb_true_iff, !orb_true_iff, !negb_true_iff, !Z.leb_le. intros [[H1 H2] H3].
  split; [intros E; destruct H1; [congruence|assumption]|]. split; [intros E; destruct H2; [congruence|assumption]|intros E; destruct H3; [congruence|assumption]].
Qed.

(** a system given by rows: lattice, coordinates, types, elements, processes; us are the deviates of the steps, then one more step *)
Definition userCheck (ranks : Z) (hash : list Z -> Z) (L : lattice) (coords : list coord) (els : list (list string)) (pt : tmap) (xs : list xspec) (wild custom : bool) (rc : ratecalc)
    (us : list (deviate * deviate)) (u1 u2 : deviate) (Q : config -> interactions -> model -> model -> bool) : bool :=
  somewhere (mkConfiguration coords els pt) (fun cf => somewhere (buildAll (lt_unit L) pt xs) (fun ps => let it := mkInteractions ps wild custom rc in
    somewhere (mkLatticeModel ranks hash L cf it) (fun md0 => somewhere (runSteps md0 us) (fun md => somewhere (singleStep md u1 u2) (fun md' =>
      wfInputb ranks L cf it && wfPTb pt && fitsb L (maxRange it) && (lt_unit L <? 100000) && forallb (fun x => specOKb (xs_spec x)) xs && Q cf it md md'))))).
Record userSystem (ranks : Z) (hash : list Z -> Z) (L : lattice) (coords : list coord) (els : list (list string)) (pt : tmap) (xs : list xspec) (wild custom : bool) (rc : ratecalc)
   (us : list (deviate * deviate)) (u1 u2 : deviate) (cf : config) (it : interactions) (md md' : model) : Prop := {
  us_input : userInput ranks L cf it (specOf xs);
  us_cf : mkConfiguration coords els pt = Some cf;
  us_run : exists md0, mkLatticeModel ranks hash L cf it = Some md0 /\ runSteps md0 us = Some md;
  us_step : singleStep md u1 u2 = Some md';
  us_it : exists ps, buildAll (lt_unit L) pt xs = Some ps /\ it = mkInteractions ps wild custom rc }.
Lemma userCheck_sound ranks hash L coords els pt xs wild custom rc us u1 u2 Q : userCheck ranks hash L coords els pt xs wild custom rc us u1 u2 Q = true ->
  exists cf it md md', userSystem ranks hash L coords els pt xs wild custom rc us u1 u2 cf it md md' /\ Q cf it md md' = true.
Proof.
  unfold userCheck. intros H. apply somewhere_Some in H. destruct H as (cf & Ecf & H). apply somewhere_Some in H. destruct H as (ps & Eps & H). cbn zeta in H.
  set (it := mkInteractions ps wild custom rc) in *. apply somewhere_Some in H. destruct H as (md0 & E0 & H). apply somewhere_Some in H. destruct H as (md & E1 & H). apply somewhere_Some in H. destruct H as (md' & E2 & H).
  rewrite !andb_true_iff in H. destruct H as (((((H1 & H2) & H3) & H4) & H5) & H6). exists cf, it, md, md'. split; [|exact H6].
  assert (EP : cf_ptypes cf = pt) by (apply mkConfiguration_info in Ecf; apply Ecf).
  constructor; [|exact Ecf|eauto|exact E2|exists ps; auto].
  constructor; [apply wfInputb_sound; exact H1|rewrite EP; apply wfPTb_sound; exact H2|rewrite EP; eauto|apply fitsb_sound; exact H3|apply Z.ltb_lt; exact H4|].
  intros i p Ep. rewrite EP. destruct (buildAll_get _ _ _ _ i p Eps) as (x & Ex & B); [exact Ep|]. unfold specOf. rewrite Ex. eapply buildSpec_sound; [|exact B].
  rewrite forallb_forall in H5. apply H5. eapply zget_In; eauto.
Qed.
Lemma userSystem_reach ranks hash L coords els pt xs wild custom rc us u1 u2 cf it md md' : userSystem ranks hash L coords els pt xs wild custom rc us u1 u2 cf it md md' ->
  reachable ranks hash L cf it md /\ reachable ranks hash L cf it md'.
Proof.
  intros []. destruct us_run0 as (md0 & E0 & E1). assert (R : reachable ranks hash L cf it md) by (exists md0, us; auto). split; [exact R|]. eapply reach_step; eauto.
Qed.

(** ** System A: plain processes on 4 x 3 x 1 sites, periodic in the plane: A hops to the right over B, A turns into B with any neighbour, B into A *)
Definition one (l : list string) : list (list string) := map (fun s => [s]) l.
Definition plain (rows : list row) (rate : Z) : xspec := mkXS (Plain rows) [0] rate None.
Definition bucket1 (rows : list brow) (b rate : Z) : xspec := mkXS (Bucket rows) [b] rate None.
Definition xaTypes : list string := ["A"; "B"; "B";  "B"; "A"; "B";  "B"; "B"; "B";  "A"; "A"; "B"].
Definition hopRows : list row := [mkRow (xcell 0 0 0) "A" "B" (Some (xcell 1 0 0)); mkRow (xcell 1 0 0) "B" "A" (Some (xcell (-1) 0 0))].
Definition upRows : list row := [mkRow (xcell 0 0 0) "A" "B" (Some (xcell 0 1 0)); mkRow (xcell 0 1 0) "B" "A" (Some (xcell 0 (-1) 0)); mkRow (xcell 1 0 0) "*" "*" None].
Definition xaSpecs : list xspec :=
  [ plain hopRows 3; plain upRows 5; plain [mkRow (xcell 0 0 0) "A" "B" None; mkRow (xcell (-1) 0 0) "*" "*" None] 1; plain [mkRow (xcell 0 0 0) "B" "A" None] 2 ].
Definition xaCheck := userCheck 2 xhash x1L x1sites (one xaTypes) x1pt xaSpecs true false norc x1us (dev 1 100) (dev 1 2).
(** System B: only hops *)
Definition xbSpecs : list xspec := [ plain hopRows 3; plain upRows 5 ].
Definition xbCheck := userCheck 2 xhash x1L x1sites (one xaTypes) x1pt xbSpecs true false norc x1us (dev 1 100) (dev 1 2).
(** System C: bucket processes on 3 x 3 x 3 cells with two basis points *)
Definition xcSpecs : list xspec :=
  [ bucket1 [mkBRow czero ["A"] [("A", -1)]; mkBRow (mkC 5 5 5) ["V"] [("A", 1)]] 0 4;
    bucket1 [mkBRow czero ["A"; "B"] [("A", -1); ("B", -1)]; mkBRow (mkC 5 5 5) ["*"] []; mkBRow (mkC (-5) (-5) (-5)) ["V"] [("A", 1); ("B", 1)]] 1 7;
    bucket1 [mkBRow czero ["A"; "A"] [("A", -1)]] 1 2 ].
Definition xcCheck := userCheck 3 xhash x2L x2sites x2elements x2pt xcSpecs true false norc x2us (dev 99 100) (dev 1 2).
Lemma xa_ok : xaCheck (fun _ _ _ _ => true) = true. Proof. vm_compute. reflexivity. Qed.
Lemma xb_ok : xbCheck (fun _ _ _ _ => true) = true. Proof. vm_compute. reflexivity. Qed.
Lemma xc_ok : xcCheck (fun _ _ _ _ => true) = true. Proof. vm_compute. reflexivity. Qed.
Strategy expand [xaCheck xbCheck xcCheck].

(** systems of plain processes only *)
Definition rowsIn (xs : list xspec) (i : Z) : list row := match specOf xs i with Plain rows => rows | Bucket _ => [] end.
Definition isPlain (x : xspec) : bool := match xs_spec x with Plain _ => true | Bucket _ => false end.
Lemma rowsIn_spec xs i : forallb isPlain xs = true -> specOf xs i = Plain (rowsIn xs i).
Proof.
  intros H. unfold rowsIn, specOf. destruct (zget xs i) as [x|] eqn:E; [|reflexivity]. rewrite forallb_forall in H. specialize (H x (zget_In _ _ _ E)). unfold isPlain in H. destruct (xs_spec x); [reflexivity|discriminate].
Qed.
Lemma userSystem_plain ranks hash L coords ts pt xs wild custom rc us u1 u2 cf it md md' : forallb isPlain xs = true ->
  userSystem ranks hash L coords (one ts) pt xs wild custom rc us u1 u2 cf it md md' -> plainUser ranks L cf it (rowsIn xs).
Proof.
  intros HP US. pose proof (us_input _ _ _ _ _ _ _ _ _ _ _ _ _ _ _ _ _ US) as UI. constructor.
  - constructor; try apply UI. intros i p Ep. rewrite <- rowsIn_spec by exact HP. apply UI. exact Ep.
  - pose proof (us_cf _ _ _ _ _ _ _ _ _ _ _ _ _ _ _ _ _ US) as E. exists coords, ts. replace (cf_ptypes cf) with pt; [exact E|]. apply mkConfiguration_info in E. symmetry. apply E.
Qed.
(** a property of all the rows *)
Lemma rowsIn_all xs (P : list row -> Prop) (Pb : list row -> bool) : (forall r, Pb r = true -> P r) -> P [] -> forallb (fun x => match xs_spec x with Plain rows => Pb rows | _ => true end) xs = true -> forall i, P (rowsIn xs i).
Proof.
  intros HS H0 H i. unfold rowsIn, specOf. destruct (zget xs i) as [x|] eqn:E; [|exact H0]. rewrite forallb_forall in H. specialize (H x (zget_In _ _ _ E)). destruct (xs_spec x); [apply HS; exact H|exact H0].
Qed.
Ltac reached US := first [exact (proj1 (userSystem_reach _ _ _ _ _ _ _ _ _ _ _ _ _ _ _ _ _ US)) | exact (proj2 (userSystem_reach _ _ _ _ _ _ _ _ _ _ _ _ _ _ _ _ _ US))].
Ltac inputOf US := exact (us_input _ _ _ _ _ _ _ _ _ _ _ _ _ _ _ _ _ US).
