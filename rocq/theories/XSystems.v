(** Concrete systems used in the examples beside the theorems. *)
From Verif Require Import PBase SModel SGeo XCheck.
Open Scope Z_scope.
Open Scope list_scope.
Open Scope string_scope.

Definition xS : Z := 10.
Definition xcell (a b c : Z) : coord := mkC (a * xS) (b * xS) (c * xS).
Definition dev (n d : Z) : deviate := mkDev n d.
Definition xloc (pt : tmap) (cs : list coord) (els : list (list string)) : option config := mkConfiguration cs els pt.
Definition xplain (pt : tmap) (basis rate number : Z) (cs : list coord) (before after : list (list string))
                  (origins : list Z) (vectors : list coord) : option process :=
  f <- xloc pt cs before ;; s <- xloc pt cs after ;; mkProcess xS f s rate [basis] origins vectors number.
Definition xbucket (pt : tmap) (basis rate number : Z) (cs : list coord) (before : list (list string)) (u : list tmap) : option process :=
  f <- xloc pt cs before ;; mkProcess xS f (setUpdateInfo f u) rate [basis] [] [] number.
Definition xcustom (pt : tmap) (basis rate number cutoff : Z) (cache : bool) (cs : list coord) (before after : list (list string))
                  (origins : list Z) (vectors : list coord) : option process :=
  f <- xloc pt cs before ;; s <- xloc pt cs after ;; mkCustomProcess xS f s rate [basis] cutoff origins vectors number cache.
Definition norc : ratecalc := mkRC (fun _ _ _ r _ _ => r) (fun _ _ _ _ r _ _ => r).
Definition xhash (l : list Z) : Z := fold_left (fun h v => h * 31 + v) l 7.

(** run a system from its construction *)
Definition runOf (ranks : Z) (hash : list Z -> Z) (L : lattice) (ocf : option config) (oit : option interactions)
                 (us : list (deviate * deviate)) : option model :=
  cf <- ocf ;; it <- oit ;; md <- mkLatticeModel ranks hash L cf it ;; runSteps md us.
Lemma runOf_Some ranks hash L ocf oit us md' : runOf ranks hash L ocf oit us = Some md' ->
  exists cf it md, ocf = Some cf /\ oit = Some it /\ mkLatticeModel ranks hash L cf it = Some md /\ runSteps md us = Some md'.
Proof. unfold runOf. intros H. ob H as cf Ecf. ob H as it Eit. ob H as md Em. eauto 10. Qed.

Definition somewhere {A} (o : option A) (P : A -> bool) : bool := match o with Some a => P a | None => false end.
Lemma somewhere_Some {A} (o : option A) P : somewhere o P = true -> exists a, o = Some a /\ P a = true.
Proof. destruct o; simpl; [eauto|discriminate]. Qed.

(** a system that meets the hypotheses of the theorems and runs; [us] and then one more step [u1], [u2];
    Q is a further check of the start and of the two last states *)
Definition sysCheck (ranks : Z) (hash : list Z -> Z) (L : lattice) (basis : list coord) (W : Z) (ocf : option config)
    (oit : option interactions) (us : list (deviate * deviate)) (u1 u2 : deviate)
    (Q : config -> interactions -> model -> model -> bool) : bool :=
  somewhere ocf (fun cf => somewhere oit (fun it => somewhere (mkLatticeModel ranks hash L cf it) (fun md0 =>
    somewhere (runSteps md0 us) (fun md => somewhere (singleStep md u1 u2) (fun md' =>
      wfInputb ranks L cf it && geoInputb L basis (maxRange it) W cf && in_wild it &&
      forallb (fun p => regularb L basis (maxRange it) W p && idmovesOKb p) (in_procs it) && Q cf it md md'))))).
Record system (ranks : Z) (hash : list Z -> Z) (L : lattice) (basis : list coord) (W : Z) (cf : config) (it : interactions)
              (us : list (deviate * deviate)) (u1 u2 : deviate) (md md' : model) : Prop := {
  sy_wf : wfInput ranks L cf it;
  sy_geo : geoInput L basis (maxRange it) W cf;
  sy_wild : in_wild it = true;
  sy_regular : forall i p, zget (in_procs it) i = Some p -> regular L basis (maxRange it) W p /\ idmovesOK p;
  sy_run : exists md0, mkLatticeModel ranks hash L cf it = Some md0 /\ runSteps md0 us = Some md;
  sy_step : singleStep md u1 u2 = Some md' }.
Lemma sysCheck_sound ranks hash L basis W ocf oit us u1 u2 Q : sysCheck ranks hash L basis W ocf oit us u1 u2 Q = true ->
  exists cf it md md', ocf = Some cf /\ oit = Some it /\ system ranks hash L basis W cf it us u1 u2 md md' /\ Q cf it md md' = true.
Proof.
  unfold sysCheck. intros H. apply somewhere_Some in H. destruct H as (cf & Ecf & H). apply somewhere_Some in H. destruct H as (it & Eit & H).
  apply somewhere_Some in H. destruct H as (md0 & E0 & H). apply somewhere_Some in H. destruct H as (md & E1 & H).
  apply somewhere_Some in H. destruct H as (md' & E2 & H). rewrite !andb_true_iff in H. destruct H as ((((H1 & H2) & H3) & H4) & H5).
  exists cf, it, md, md'. split; [exact Ecf|]. split; [exact Eit|]. split; [|exact H5].
  constructor; eauto using wfInputb_sound, geoInputb_sound.
  intros i p Ep. rewrite forallb_forall in H4. specialize (H4 p (zget_In _ _ _ Ep)). apply andb_true_iff in H4. destruct H4.
  split; auto using regularb_sound, idmovesOKb_sound.
Qed.
Lemma system_reach ranks hash L basis W cf it us u1 u2 md md' : system ranks hash L basis W cf it us u1 u2 md md' ->
  reachable ranks hash L cf it md /\ reachable ranks hash L cf it md'.
Proof.
  intros []. destruct sy_run0 as (md0 & E0 & E1). split; [exists md0, us; auto|].
  exists md0, (us ++ [(u1, u2)])%list. split; [exact E0|]. unfold runSteps in *. rewrite ofold_app, E1. cbn. rewrite sy_step0. reflexivity.
Qed.
(** the listed sites of a process *)
Definition listedb (md : model) (i x : Z) : bool := somewhere (zget (in_procs (md_in md)) i) (fun p => isListed p x).

(** ** System 1: 4 x 3 x 1 sites, periodic in the plane, two types A and B; hops of A to the right and
    upwards, flips A -> B and B -> A. *)
Definition x1L : lattice := mkLat 1 4 3 1 true true false xS.
Definition x1basis : list coord := [czero].
Definition x1pt : tmap := [("*", 0); ("A", 1); ("B", 2)].
Definition x1sites : list coord := generateLatticeSites x1L x1basis.
Definition x1elements : list (list string) :=
  [["A"]; ["B"]; ["B"];  ["B"]; ["A"]; ["B"];  ["B"]; ["B"]; ["B"];  ["A"]; ["A"]; ["B"]].
Definition x1procs : option (list process) :=
  omap (fun p => p)
    [ xplain x1pt 0 3 0 [xcell 0 0 0; xcell 1 0 0] [["A"]; ["B"]] [["B"]; ["A"]] [0; 1] [xcell 1 0 0; xcell (-1) 0 0];
      xplain x1pt 0 5 1 [xcell 0 0 0; xcell 0 1 0] [["A"]; ["B"]] [["B"]; ["A"]] [0; 1] [xcell 0 1 0; xcell 0 (-1) 0];
      xplain x1pt 0 1 2 [xcell 0 0 0] [["A"]] [["B"]] [] [];
      xplain x1pt 0 2 3 [xcell 0 0 0] [["B"]] [["A"]] [] [] ].
Definition x1in : option interactions := ps <- x1procs ;; Some (mkInteractions ps true false norc).
Definition x1cf : option config := mkConfiguration x1sites x1elements x1pt.
Definition x1us : list (deviate * deviate) := [(dev 1 3, dev 1 7); (dev 3 4, dev 5 9); (dev 9 10, dev 2 3)].
Definition x1check := sysCheck 2 xhash x1L x1basis 3 x1cf x1in x1us (dev 1 100) (dev 1 2).

(** ** System 2: 3 x 3 x 3 cells with two basis points, one and two particles per site, bucket processes *)
Definition x2L : lattice := mkLat 2 3 3 3 true true true xS.
Definition x2basis : list coord := [czero; mkC 5 5 5].
Definition x2pt : tmap := [("*", 0); ("A", 1); ("B", 2); ("V", 3)].
Definition x2sites : list coord := generateLatticeSites x2L x2basis.
Definition x2elements : list (list string) :=
  map (fun i => if (i mod 5 =? 0)%Z then ["A"; "A"; "V"] else if (i mod 5 =? 1)%Z then ["B"; "V"] else if (i mod 5 =? 2)%Z then ["A"; "B"; "V"] else ["V"])
      (zrange 0 53).
Definition x2procs : option (list process) :=
  omap (fun p => p)
    [ xbucket x2pt 0 4 0 [czero; mkC 5 5 5] [["A"]; ["V"]] [[("A", -1)]; [("A", 1)]];
      xbucket x2pt 1 7 1 [czero; mkC 5 5 5; mkC (-5) (-5) (-5)] [["A"; "B"]; ["*"]; ["V"]] [[("A", -1); ("B", -1)]; []; [("A", 1); ("B", 1)]];
      xbucket x2pt 1 2 2 [czero] [["A"; "A"]] [[("A", -1)]] ].
Definition x2in : option interactions := ps <- x2procs ;; Some (mkInteractions ps true false norc).
Definition x2cf : option config := mkConfiguration x2sites x2elements x2pt.
Definition x2us : list (deviate * deviate) := [(dev 1 3, dev 1 7); (dev 3 4, dev 5 9)].
Definition x2check := sysCheck 3 xhash x2L x2basis 4 x2cf x2in x2us (dev 99 100) (dev 1 2).

(** ** System 3: custom rates, cached; the lattice of system 1 *)
Definition x3rc : ratecalc :=
  mkRC (fun coords before after r p gc => r + zlen coords + 3 * zlen (filter (fun t => if string_dec t "A" then true else false) before))
       (fun coords before after info r p gc => r + zlen coords + 3 * zlen before).
Definition x3procs : option (list process) :=
  omap (fun p => p)
    [ xcustom x1pt 0 3 0 10 true [xcell 0 0 0; xcell 1 0 0] [["A"]; ["B"]] [["B"]; ["A"]] [0; 1] [xcell 1 0 0; xcell (-1) 0 0];
      xcustom x1pt 0 5 1 10 false [xcell 0 0 0; xcell 0 1 0] [["A"]; ["B"]] [["B"]; ["A"]] [0; 1] [xcell 0 1 0; xcell 0 (-1) 0];
      xcustom x1pt 0 1 2 12 true [xcell 0 0 0] [["B"]] [["A"]] [] [] ].
Definition x3in : option interactions := ps <- x3procs ;; Some (mkInteractions ps true true x3rc).
Definition x3check := sysCheck 2 xhash x1L x1basis 3 x1cf x3in x1us (dev 1 100) (dev 1 2).

Lemma x1_ok : x1check (fun _ _ _ _ => true) = true. Proof. vm_compute. reflexivity. Qed.
Lemma x2_ok : x2check (fun _ _ _ _ => true) = true. Proof. vm_compute. reflexivity. Qed.
Lemma x3_ok : x3check (fun _ _ _ _ => true) = true. Proof. vm_compute. reflexivity. Qed.
Strategy expand [x1check x2check x3check].
