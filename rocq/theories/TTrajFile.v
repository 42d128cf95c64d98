(** C71: a lattice trajectory file is a Python program that gives back what was recorded. *)
From Verif Require Import PTrajFile.
Open Scope string_scope.
Open Scope list_scope.
Open Scope Z_scope.

(** the calls of a program that uses a lattice trajectory: as in C28 *)
Lemma lat_calls {T} (fmtTime : T -> string) u size maxSize maxTime header (cs : list (@tcall (T * Z * shown))) : (forall d, In d (appended cs) -> 2 <= sitesShown (snd d)) ->
  exists st last k, doCalls ltStore size (ltFlush fmtTime u) maxSize maxTime (map (mapCall (fun d => (fst (fst d), snd (fst d), asPython (snd d)))) cs) (ltNew header) = ((st, last), Ok tt) /\
    lt_file st = (header ++ cat (map (frameText fmtTime u) (firstn k (appended cs))))%string /\ lt_steps st = map (fun d => snd (fst d)) (skipn k (appended cs)) /\
    exists st', ltFlush fmtTime u st = (st', Ok tt) /\ lt_file st' = (header ++ cat (map (frameText fmtTime u) (appended cs)))%string.
Proof.
  intros HR. destruct (doCalls_ok ltStore size (ltFlush fmtTime u) maxSize maxTime (latHolds fmtTime u header) latGood) with (cs := map (mapCall (@pyFrame T)) cs) (st := mkLT (@nil T) [] [] header) (last := 0) (fs := @nil (T * Z * list pyval)) as (st & last & E & HH).
  - intros st fs d. apply latStore_ok.
  - intros st fs. apply latFlush_ok.
  - rewrite appended_map. intros d Hd. apply in_map_iff in Hd. destruct Hd as (d' & <- & Hd). exists d'. split; [reflexivity|]. apply (HR d' Hd).
  - exists [], []. cbn. rewrite sapp_nil. repeat (split; [auto|]); auto. intros d [].
  - rewrite app_nil_l, appended_map in HH. destruct (latFlush_full fmtTime u header st _ HH) as (ds & F1 & F2 & F3). destruct HH as (done & buf & D1 & D2 & D3 & D4 & D5 & D6).
    assert (EQ : forall ds, map pyFrame (appended cs) = map pyFrame ds -> appended cs = ds). { clear - HR. induction (appended cs) as [|d l IH]; intros [|d' ds] D1; try discriminate; [reflexivity|]. cbn [map] in D1. inversion D1 as [[I1 I2 I3 I4]]. f_equal; [|apply IH; [intros; apply HR; right; assumption|exact I4]]. apply pyFrame_types; [|apply HR; left; reflexivity]. unfold pyFrame. congruence. }
    pose proof (EQ _ D1) as ED. pose proof (EQ _ F1) as EF. exists st, last, (length done). split; [exact E|]. rewrite D6, D4. split; [|split].
    + rewrite ED, firstn_app, Nat.sub_diag, firstn_all. cbn [firstn]. rewrite app_nil_r. reflexivity.
    + rewrite ED, skipn_app, Nat.sub_diag, skipn_all. reflexivity.
    + eexists. split; [exact F3|]. cbn [lt_file]. rewrite EF. reflexivity.
Qed.
(** For all buffer limits, sizes of the buffer, clock readings and sequences of append and flush: the file, executed as a Python program, is at every moment the record of the first k frames, those that are
    not in the buffer, and after a flush the record of all frames.  [float]: how Python makes a float of m * 10^k.  For at least one site in the header and two in each frame (C29), and names of types without
    double quotes, backslashes and line breaks. *)
Theorem C71_file U (fl : Z -> Z -> pyval) {A} (construct : list A -> string -> list (string * pyval) -> outcome A) u size maxSize maxTime ctime sites (cs : list (@tcall (Z * Z * shown))) :
  0 < U -> quotable """" ctime -> sites <> [] -> (forall t s y, In (t, s, y) (appended cs) -> 2 <= sitesShown y /\ forall n, In n (namesShown y) -> quotable """" n) ->
  let float m k := Some (fl m k) in
  exists st last, doCalls ltStore size (ltFlush (fmtE 18 10 U) u) maxSize maxTime (map (mapCall (fun d => (fst (fst d), snd (fst d), asPython (snd d)))) cs) (ltNew (latHeader (fmtF 15 6 U) ctime sites)) = ((st, last), Ok tt) /\
    (exists k vars, execFile float construct (lt_file st) = Ok (mkState vars [] false) /\ fileVars U fl ctime sites (firstn k (appended cs)) vars /\ lt_steps st = map (fun d => snd (fst d)) (skipn k (appended cs))) /\
    (exists st' vars, ltFlush (fmtE 18 10 U) u st = (st', Ok tt) /\ execFile float construct (lt_file st') = Ok (mkState vars [] false) /\ fileVars U fl ctime sites (appended cs) vars).
Proof.
  intros HU HC Hn HD float. assert (HD' : forall d, In d (appended cs) -> 2 <= sitesShown (snd d) /\ okNames (snd d)) by (intros [[t s] y] Hd; exact (HD t s y Hd)).
  destruct (lat_calls (fmtE 18 10 U) u size maxSize maxTime (latHeader (fmtF 15 6 U) ctime sites) cs) as (st & last & k & E & F & B & st' & E' & F'); [intros d Hd; apply (HD' d Hd)|].
  exists st, last. split; [exact E|]. split.
  - destruct (file_vars U fl HU construct u ctime sites (firstn k (appended cs)) HC Hn) as (vars & X & V).
    { intros d Hd. apply HD'. rewrite <- (firstn_skipn k (appended cs)). apply in_or_app. left. exact Hd. }
    exists k, vars. split; [rewrite F; exact X|]. split; [exact V|exact B].
  - destruct (file_vars U fl HU construct u ctime sites (appended cs) HC Hn HD') as (vars & X & V). exists st', vars. split; [exact E'|]. split; [rewrite F'; exact X|exact V].
Qed.
(** A recorded time is not always read back as it was: a time with more than eleven digits comes back rounded, so that two different times in a run can be read as equal. *)
Theorem C71_times_refuted : exists U t t', 0 < U /\ 0 < t < t' /\ fmtE 18 10 U t = fmtE 18 10 U t'.
Proof. exists 1, 1000000000000, 1000000000001. split; [reflexivity|]. split; [split; reflexivity|]. vm_compute. reflexivity. Qed.
(** A configuration with one site cannot be written (C29): the attempts leave a program that has more times and steps than types. *)
Theorem C71_one_site_refuted : exists (cs : list (@tcall (Z * Z * shown))) st st' vars,
  doCalls ltStore (fun _ => 0) (ltFlush (fmtE 18 10 10) 1) 100 100 (map (mapCall (fun d => (fst (fst d), snd (fst d), asPython (snd d)))) cs) (ltNew (latHeader (fmtF 15 6 10) "now" [(0, 0, 0)])) = (st, Ok tt) /\
  ltFlush (fmtE 18 10 10) 1 (fst st) = (st', Raise IndexError) /\ execFile (fun m k => Some (VTuple [VInt m; VInt k])) (fun _ _ _ => @Raise unit KmcError) (lt_file st') = Ok (mkState vars [] false) /\
  getVar vars "times" = Some (VList [VTuple [VInt 15000000000; VInt (-10)]]) /\ getVar vars "steps" = Some (VList [VInt 1]) /\ getVar vars "types" = Some (VList []).
Proof. exists [TAppend (15, 1, SNames ["A"]) 0 0]. eexists. eexists. eexists. split; [vm_compute; reflexivity|]. split; [vm_compute; reflexivity|]. split; [vm_compute; reflexivity|]. split; [reflexivity|]. split; reflexivity. Qed.
(** Not vacuous: names of one and more letters, buckets, an empty site, three sites and two flushes; the values of the variables as they are read. *)
Example C71_example : exists st last vars, let cs := [TAppend (5, 0, SNames ["A"; "B2"; "A"]) 1000 1001; TAppend (70, 1, SNames ["B2"; "B2"; "A"]) 1002 0; TFlush; TAppend (12345, 20, SBuckets [["A"; "B"; "A"]; []; ["C"]]) 3000 3001] in
  doCalls ltStore (fun st => zlen (lt_types st)) (ltFlush (fmtE 18 10 100) 1) 10 100 (map (mapCall (fun d => (fst (fst d), snd (fst d), asPython (snd d)))) cs) (ltNew (latHeader (fmtF 15 6 100) "Mon Nov 16" [(0, 0, 0); (100, 50, -25); (200, 0, 0)])) = ((st, last), Ok tt) /\
  execFile (floatOf 100) (fun _ _ _ => @Raise unit KmcError) (lt_file st) = Ok (mkState vars [] false) /\
  getVar vars "times" = Some (VList [VFloat (FNum 5); VFloat (FNum 70); VFloat (FNum 12345)]) /\ getVar vars "steps" = Some (VList [VInt 0; VInt 1; VInt 20]) /\
  getVar vars "sites" = Some (VList (map (fun p => VList (map (fun x => VFloat (FNum x)) p)) [[0; 0; 0]; [100; 50; -25]; [200; 0; 0]])) /\
  getVar vars "types" = Some (VList [typesOf (SNames ["A"; "B2"; "A"]); typesOf (SNames ["B2"; "B2"; "A"]); VList [VList [VTuple [VInt 2; VStr "A"]; VTuple [VInt 1; VStr "B"]]; VList []; VList [VTuple [VInt 1; VStr "C"]]]]).
Proof. eexists. eexists. eexists. cbn zeta. split; [vm_compute; reflexivity|]. split; [vm_compute; reflexivity|]. repeat split. Qed.
Example C71_hypotheses : quotable """" "Mon Nov 16 20:00:00 2026" /\ shortDecimal 11 100 12345 /\ ~ shortDecimal 11 3 1.
Proof.
  split; [|split].
  - intros c Hc. cbn in Hc. repeat (destruct Hc as [<-|Hc]; [repeat split; discriminate|]). destruct Hc.
  - exists 12345, (-2). split; [reflexivity|]. reflexivity.
  - intros (m & k & Hm & H). unfold equalTo in H. unfold tens in H. assert (E : (10 ^ Z.max 0 (- k)) mod 3 = 0) by (rewrite Z.mul_1_l in H; rewrite <- H; apply Z.mod_mul; lia).
    assert (G : forall n, 0 <= n -> (10 ^ n) mod 3 = 1). { intros n Hn. pattern n. apply natlike_ind; [reflexivity| |exact Hn]. intros x Hx IH. rewrite Z.pow_succ_r by exact Hx. rewrite Z.mul_mod, IH by lia. reflexivity. }
    rewrite G in E by lia. discriminate.
Qed.
Print Assumptions C71_file. Print Assumptions C71_times_refuted. Print Assumptions C71_one_site_refuted.
