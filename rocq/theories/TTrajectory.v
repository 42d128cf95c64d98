(** C28, C29: trajectory files. *)
From Verif Require Import PTrajectory.
Open Scope string_scope.
Open Scope list_scope.
Open Scope Z_scope.

(** ** C28 *)
(** A lattice trajectory: for all buffer limits, sizes of the buffer, clock readings and sequences of append and flush, the program runs to its end without exception, and after a final flush a reader of
    the file finds the frames that were appended, once each and in order.  For frames with at least two sites (see C29) and type names without double quotes.  The time of a frame is found as it was formatted. *)
Theorem C28_lattice {T} (fmtTime : T -> string) u size maxSize maxTime header (cs : list (@tcall (T * Z * shown))) :
  (forall t s y, In (t, s, y) (appended cs) -> without ")" (fmtTime t) /\ 2 <= sitesShown y /\ forall n, In n (namesShown y) -> without """" n) ->
  exists st last, doCalls ltStore size (ltFlush fmtTime u) maxSize maxTime (map (mapCall (fun d => (fst (fst d), snd (fst d), asPython (snd d)))) cs ++ [TFlush]) (ltNew header) = ((st, last), Ok tt) /\
    framesIn header (lt_file st) = Some (map (fun d => (fmtTime (fst (fst d)), snd (fst d), asRead (snd d))) (appended cs)).
Proof.
  intros H. assert (HR : forall d, In d (appended cs) -> readable fmtTime d) by (intros [[t s] y] Hd; exact (H t s y Hd)).
  destruct (doCalls_ok ltStore size (ltFlush fmtTime u) maxSize maxTime (latHolds fmtTime u header) latGood) with (cs := map (mapCall (@pyFrame T)) cs) (st := mkLT (@nil T) [] [] header) (last := 0) (fs := @nil (T * Z * list pyval)) as (st & last & E & HH).
  - intros st fs d. apply latStore_ok.
  - intros st fs. apply latFlush_ok.
  - rewrite appended_map. intros d Hd. apply in_map_iff in Hd. destruct Hd as (d' & <- & Hd). exists d'. split; [reflexivity|]. apply (HR d' Hd).
  - exists [], []. cbn. rewrite sapp_nil. repeat (split; [auto|]); auto. intros d [].
  - rewrite app_nil_l, appended_map in HH. destruct (latFlush_full fmtTime u header st _ HH) as (ds & D1 & D2 & D3). rewrite doCalls_app. unfold ltNew, pyFrame in *. rewrite E. cbn [doCalls doCall fst]. rewrite D3. eexists. exists last. split; [reflexivity|]. cbn [lt_file].
    assert (ED : appended cs = ds). { assert (HR' : forall d, In d (appended cs) -> 2 <= sitesShown (snd d)) by (intros d Hd; apply (HR d Hd)). clear - D1 HR'. revert ds D1. induction (appended cs) as [|d l IH]; intros [|d' ds] D1; try discriminate; [reflexivity|]. cbn [map] in D1. inversion D1 as [[I1 I2 I3 I4]]. f_equal; [|apply IH; [intros; apply HR'; right; assumption|exact I4]]. apply pyFrame_types; [|apply HR'; left; reflexivity]. unfold pyFrame. congruence. }
    subst ds. apply framesIn_ok. exact HR.
Qed.
(** At every moment, not only at the end, the file holds a beginning of the sequence of appended frames, and only whole frames. *)
Theorem C28_prefix {T} (fmtTime : T -> string) u size maxSize maxTime header (cs : list (@tcall (T * Z * shown))) :
  (forall t s y, In (t, s, y) (appended cs) -> without ")" (fmtTime t) /\ 2 <= sitesShown y /\ forall n, In n (namesShown y) -> without """" n) ->
  exists st last k, doCalls ltStore size (ltFlush fmtTime u) maxSize maxTime (map (mapCall (fun d => (fst (fst d), snd (fst d), asPython (snd d)))) cs) (ltNew header) = ((st, last), Ok tt) /\
    framesIn header (lt_file st) = Some (firstn k (map (fun d => (fmtTime (fst (fst d)), snd (fst d), asRead (snd d))) (appended cs))).
Proof.
  intros H. assert (HR : forall d, In d (appended cs) -> readable fmtTime d) by (intros [[t s] y] Hd; exact (H t s y Hd)).
  destruct (doCalls_ok ltStore size (ltFlush fmtTime u) maxSize maxTime (latHolds fmtTime u header) latGood) with (cs := map (mapCall (@pyFrame T)) cs) (st := mkLT (@nil T) [] [] header) (last := 0) (fs := @nil (T * Z * list pyval)) as (st & last & E & HH).
  - intros st fs d. apply latStore_ok.
  - intros st fs. apply latFlush_ok.
  - rewrite appended_map. intros d Hd. apply in_map_iff in Hd. destruct Hd as (d' & <- & Hd). exists d'. split; [reflexivity|]. apply (HR d' Hd).
  - exists [], []. cbn. rewrite sapp_nil. repeat (split; [auto|]); auto. intros d [].
  - rewrite app_nil_l, appended_map in HH. destruct HH as (done & buf & D1 & D2 & D3 & D4 & D5 & D6). exists st, last, (length done). unfold ltNew. split; [exact E|]. rewrite D6.
    assert (ED : appended cs = done ++ buf). { assert (HR' : forall d, In d (appended cs) -> 2 <= sitesShown (snd d)) by (intros d Hd; apply (HR d Hd)). clear - D1 HR'. revert D1. generalize (done ++ buf). intros ds. revert ds. induction (appended cs) as [|d l IH]; intros [|d' ds] D1; try discriminate; [reflexivity|]. cbn [map] in D1. inversion D1 as [[I1 I2 I3 I4]]. f_equal; [|apply IH; [intros; apply HR'; right; assumption|exact I4]]. apply pyFrame_types; [|apply HR'; left; reflexivity]. unfold pyFrame. congruence. }
    rewrite ED in *. rewrite framesIn_ok by (intros; apply HR, in_or_app; left; assumption). rewrite map_app. f_equal. rewrite <- (map_length (fun d => (fmtTime (fst (fst d)), snd (fst d), asRead (snd d))) done), firstn_app, Nat.sub_diag, firstn_all. cbn [firstn]. rewrite app_nil_r. reflexivity.
Qed.
(** The same for an xyz trajectory, if the buffered types are copies (live = false) or never change.  Type names and the formats of numbers have no blanks or line breaks. *)
Theorem C28_xyz {T K} (fmtTime : T -> string) (fmtCoord : K -> string) size maxSize maxTime header live now (cs : list (@tcall (T * Z * list string * list (K * K * K)))) :
  (forall t s y c, In (t, s, y, c) (appended cs) -> without "010" (fmtTime t) /\ length y = length c /\ (forall n, In n y -> okWord n) /\ (forall p, In p c -> okCoord fmtCoord p) /\ (live = true -> y = now)) ->
  exists st last, doCalls (xtStore live) size (xtFlush fmtTime fmtCoord) maxSize maxTime (cs ++ [TFlush]) (xtNew header now) = ((st, last), Ok tt) /\
    xyzIn header (xt_file st) = Some (map (fun d => let '(t, s, y, c) := d in (fmtTime t, s, combine y (map (coordText fmtCoord) c))) (appended cs)).
Proof.
  intros H. destruct (doCalls_ok (xtStore live) size (xtFlush fmtTime fmtCoord) maxSize maxTime (xyzHolds fmtTime fmtCoord header live now) (fun d => xyzGood fmtTime fmtCoord d /\ (live = true -> snd (fst d) = now)))
    with (cs := cs) (st := mkXT (@nil T) [] [] (@nil (list (K * K * K))) header now) (last := 0) (fs := @nil (T * Z * list string * list (K * K * K))) as (st & last & E & HH).
  - intros st fs d. apply xtStore_ok.
  - intros st fs. apply xtFlush_ok.
  - intros [[[t s] y] c] Hd. destruct (H t s y c Hd) as (H1 & H2 & H3 & H4 & H5). cbn. auto.
  - exists [], []. cbn. rewrite sapp_nil. split; [reflexivity|]. split; [intros d []|]. do 5 (split; [reflexivity|]). intros _. split; [reflexivity|]. intros d [].
  - rewrite app_nil_l in HH. rewrite doCalls_app. unfold xtNew. rewrite E. cbn [doCalls doCall fst]. rewrite (xtFlush_full fmtTime fmtCoord header live now st _ HH). eexists. exists last. split; [reflexivity|]. cbn [xt_file]. apply xyzIn_ok. intros [[[t s] y] c] Hd. destruct (H t s y c Hd) as (H1 & H2 & H3 & H4 & H5). cbn. auto.
Qed.
(** If atomIDTypes() gives a reference to the backend's vector, all frames in the buffer get the types at the time of the flush: here an A becomes a B, and the file has B in both frames. *)
Theorem C28_live_types_refuted : exists (cs : list (@tcall (Z * Z * list string * list (Z * Z * Z)))) st last,
  doCalls (xtStore true) (fun _ => 0) (xtFlush showZ showZ) 100 100 (cs ++ [TFlush]) (xtNew "" ["A"]) = ((st, last), Ok tt) /\
  map (fun d => snd (fst d)) (appended cs) = [["A"]; ["B"]] /\ option_map (map (fun f => map fst (snd f))) (xyzIn "" (xt_file st)) = Some [["B"]; ["B"]].
Proof. exists [TAppend (0, 0, ["A"], [(1, 2, 3)]) 0 0; TAppend (1, 1, ["B"], [(1, 2, 3)]) 0 0]. eexists. exists 0. split; [vm_compute; reflexivity|]. split; reflexivity. Qed.
(** Names are written without escapes: with double quotes in names, which the constructor accepts, different configurations of the same lattice leave the same text. *)
Theorem C28_quotes_refuted : exists L a b ca cb t step, a <> b /\ KMCConfiguration 1 L (VList (map VStr a)) VNone VNone = Ok ca /\ KMCConfiguration 1 L (VList (map VStr b)) VNone VNone = Ok cb /\
  writeFrame showZ 1 t step (asPython (SNames a)) = writeFrame showZ 1 t step (asPython (SNames b)) /\ snd (writeFrame showZ 1 t step (asPython (SNames a))) = Ok tt.
Proof.
  exists (mkLat 1 2 1 1 true true true 10), ["A" ++ DQ ++ "," ++ DQ ++ "B"; "C"]%string, ["A"; "B" ++ DQ ++ "," ++ DQ ++ "C"]%string. eexists. eexists. exists 0, 0. split; [discriminate|]. repeat split; vm_compute; reflexivity.
Qed.
(** Not vacuous: a run with two automatic flushes, with plain and with bucket frames *)
Example C28_example : exists st last, let cs := [TAppend (5, 0, SNames ["A"; "B"; "A"]) 1000 1001; TAppend (7, 1, SNames ["B"; "B"; "A"]) 1002 0; TFlush; TFlush; TAppend (9, 20, SBuckets [["A"; "B"; "A"]; []; ["C"]]) 3000 3001] in
  doCalls ltStore (fun st => zlen (lt_types st)) (ltFlush showZ 1) 10 100 (map (mapCall (fun d => (fst (fst d), snd (fst d), asPython (snd d)))) cs) (ltNew "# header") = ((st, last), Ok tt) /\ last = 3001 /\ lt_times st = [] /\
  framesIn "# header" (lt_file st) = Some [("5", 0, RNames ["A"; "B"; "A"]); ("7", 1, RNames ["B"; "B"; "A"]); ("9", 20, RBuckets [[(2, "A"); (1, "B")]; []; [(1, "C")]])].
Proof. eexists. eexists. cbn zeta. split; [vm_compute; reflexivity|]. split; [reflexivity|]. split; [reflexivity|]. vm_compute. reflexivity. Qed.
Example C28_xyz_example : exists st last, let cs := [TAppend (5, 0, ["A"; "B"], [(1, 2, 3); (4, 5, 6)]) 1000 1001; TAppend (7, 1, ["B"; "B"], [(1, 2, 3); (4, 5, 60)]) 1002 0; TFlush] in
  doCalls (xtStore false) (fun st => zlen (xt_types st)) (xtFlush showZ showZ) 10 100 cs (xtNew "# header" ["A"; "B"]) = ((st, last), Ok tt) /\
  xyzIn "# header" (xt_file st) = Some [("5", 0, [("A", ("1", "2", "3")); ("B", ("4", "5", "6"))]); ("7", 1, [("B", ("1", "2", "3")); ("B", ("4", "5", "60"))])].
Proof. eexists. eexists. cbn zeta. split; [vm_compute; reflexivity|]. vm_compute. reflexivity. Qed.

(** ** C29 *)
(** Every frame with at least two sites can be written, whatever the names. *)
Theorem C29_two_sites_partial {T} (fmtTime : T -> string) u t step y : 2 <= sitesShown y -> snd (writeFrame fmtTime u t step (asPython y)) = Ok tt.
Proof. intros H. destruct (writeFrame_ok fmtTime u t step y H) as (w & E & _). rewrite E. reflexivity. Qed.
(** A configuration with one site cannot be written: IndexError; time and step of the frame have been written already, so every flush adds them again. *)
Theorem C29_one_site_refuted {T} (fmtTime : T -> string) u t step y file : sitesShown y = 1 -> exists w st, ltFlush fmtTime u (mkLT [t] [step] [asPython y] file) = (st, Raise IndexError) /\
  lt_times st = [t] /\ lt_types st = [asPython y] /\ lt_file st = (file ++ w)%string /\ w <> "".
Proof.
  intros H. assert (E : writeFrame fmtTime u t step (asPython y) = (("times.append(" ++ fmtTime t ++ ")" ++ NL ++ "steps.append(" ++ showZ step ++ ")" ++ NL)%string, Raise IndexError)).
  { unfold writeFrame. destruct y as [[|a [|b l]]|[|a [|b l]]]; cbn [sitesShown] in H; rewrite ?zlen_cons in H; try (pose proof (zlen_nonneg l)); try (cbn in H; lia); reflexivity. }
  unfold ltFlush. cbn [lt_times lt_steps lt_types lt_file writeFrames]. rewrite E. cbn. eexists. eexists. split; [reflexivity|]. cbn. repeat split. discriminate.
Qed.
Example C29_example : exists L c, nsites L = 1 /\ wf_lattice L /\ KMCConfiguration 1 L (VList [VStr "A"]) VNone VNone = Ok c /\ sitesShown (SNames ["A"]) = 1 /\ sitesShown (SBuckets [["A"; "A"]; []]) = 2.
Proof. exists (mkLat 1 1 1 1 true true true 10). eexists. split; [reflexivity|]. split; [constructor; cbn; lia|]. split; [vm_compute; reflexivity|]. split; reflexivity. Qed.
Print Assumptions C28_lattice. Print Assumptions C28_prefix. Print Assumptions C28_xyz. Print Assumptions C28_live_types_refuted. Print Assumptions C28_quotes_refuted. Print Assumptions C29_two_sites_partial. Print Assumptions C29_one_site_refuted.
