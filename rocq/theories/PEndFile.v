(** What the calls of a run leave in the trajectory file. *)
From Verif Require Import PTrajFile TTrajFile MEnd.
From Verif Require SRun PRunLoop PRunAll.
Open Scope string_scope.
Open Scope list_scope.
Open Scope Z_scope.

(** what configuration.types() shows, as a value to be written *)
Definition shownAt (kc : kconf) (md : model) : shown :=
  match kc_types kc with KBuckets _ => SBuckets (cf_elements (md_cf md)) | KPlain _ => SNames (map (hd "") (cf_elements (md_cf md))) end.
Lemma shownAt_query kc md vs : typesQuery kc (md_cf md) = Ok vs -> vs = asPython (shownAt kc md).
Proof.
  unfold typesQuery, shownAt. destruct (kc_types kc) as [ts|ts]; cbn [asPython]; [|intros H; injection H as <-; reflexivity]. generalize (cf_elements (md_cf md)) as els. intros els. revert vs. induction els as [|e els IH]; intros vs H; cbn [oall] in H; [injection H as <-; reflexivity|].
  destruct e as [|t e]; [discriminate|]. cbn [MPy.obind] in H. destruct (oall _ els) as [ws|] eqn:E; [|discriminate]. cbn [MPy.obind] in H. injection H as <-. rewrite (IH ws eq_refl). reflexivity.
Qed.
Lemma shownAt_len kc md : sitesShown (shownAt kc md) = zlen (cf_elements (md_cf md)).
Proof. unfold shownAt. destruct (kc_types kc); cbn [sitesShown]; [apply zlen_map|reflexivity]. Qed.
Lemma shownAt_names kc md vs n : typesQuery kc (md_cf md) = Ok vs -> In n (namesShown (shownAt kc md)) -> exists y els, zget (cf_elements (md_cf md)) y = Some els /\ In n els.
Proof.
  unfold typesQuery, shownAt. destruct (kc_types kc) as [ts|ts]; cbn [namesShown]; intros H Hn.
  - apply in_map_iff in Hn. destruct Hn as (e & <- & He). assert (X : e <> []). { intros ->. clear - H He. revert vs H. induction (cf_elements (md_cf md)) as [|e els IH]; intros vs H; [destruct He|]. cbn [oall] in H. destruct He as [->|He]; [discriminate|]. destruct (match e with [] => _ | _ => _ end); [|discriminate]. cbn [MPy.obind] in H. destruct (oall _ els) as [ws|] eqn:E; [|discriminate]. exact (IH He ws eq_refl). }
    apply In_zget in He. destruct He as [y Hy]. exists y, e. split; [exact Hy|]. destruct e; [congruence|left; reflexivity].
  - apply in_concat in Hn. destruct Hn as (e & He & Hn). apply In_zget in He. destruct He as [y Hy]. eauto.
Qed.

Section File.
Context (U u : Z) (kc : kconf) (ctime : string) (sites : list (Z * Z * Z)) (size : @latTraj Z -> Z) (maxSize maxTime : Z) (ticks : Z -> Z * Z).
Notation call := (@MRun.call sim).
Notation trajCall := (trajCall U u kc ctime sites size maxSize maxTime ticks).
Notation trajDo := (trajDo U u kc ctime sites size maxSize maxTime ticks).
Notation fileAfter := (fileAfter U u kc ctime sites size maxSize maxTime ticks).
Definition pyData (d : Z * Z * shown) : Z * Z * list pyval := (fst (fst d), snd (fst d), asPython (snd d)).
Definition tcallsOf (log : list call) : list (@tcall (Z * Z * shown)) :=
  flat_map (fun c => match c with MRun.CAppend t k s => [TAppend (t, k, shownAt kc (sm_md s)) (fst (ticks k)) (snd (ticks k))] | MRun.CFlush => [TFlush] | _ => [] end) log.
(** the frames of the log as they are shown *)
Definition shownFrames (fs : list (Z * Z * sim)) : list (Z * Z * shown) := map (fun f => (fst (fst f), snd (fst f), shownAt kc (sm_md (snd f)))) fs.
Lemma tcallsOf_appended log : appended (tcallsOf log) = shownFrames (SRun.frames log).
Proof using Type. induction log as [|c log IH]; [reflexivity|]. unfold tcallsOf, SRun.frames in *. cbn [flat_map]. unfold appended in *. rewrite flat_map_app, IH. unfold shownFrames in *. destruct c; reflexivity. Qed.
(** a frame that can be written *)
Definition writable (s : sim) : Prop := typesQuery kc (md_cf (sm_md s)) = Ok (asPython (shownAt kc (sm_md s))) /\ 2 <= sitesShown (shownAt kc (sm_md s)) /\ forall n, In n (namesShown (shownAt kc (sm_md s))) -> quotable """" n.
Lemma replay log : (forall t k s, In (t, k, s) (SRun.frames log) -> writable s) -> ~ In MRun.CNew log -> forall st st', 
  doCalls ltStore size (ltFlush (fmtE 18 10 U) u) maxSize maxTime (map (mapCall pyData) (tcallsOf log)) st = (st', Ok tt) -> fold_left (fun st c => trajCall c (fst st)) log (st, Ok tt) = (st', Ok tt).
Proof using Type.
  induction log as [|c log IH]; intros HW HN st st' H; [cbn in H; injection H as <-; reflexivity|]. cbn [fold_left fst].
  assert (IH' : forall st1, doCalls ltStore size (ltFlush (fmtE 18 10 U) u) maxSize maxTime (map (mapCall pyData) (tcallsOf log)) st1 = (st', Ok tt) -> fold_left (fun st c => trajCall c (fst st)) log (st1, Ok tt) = (st', Ok tt)).
  { intros st1 X. apply IH; [intros t k s Hi; apply (HW t k s); unfold SRun.frames in *; cbn [flat_map]; apply in_or_app; right; exact Hi|intros Hi; apply HN; right; exact Hi|exact X]. }
  unfold tcallsOf in H, IH'. cbn [flat_map] in H. destruct c; try (apply IH'; exact H).
  - exfalso. apply HN. left. reflexivity.
  - cbn [app map mapCall doCalls doCall] in H. cbn [MEnd.trajCall]. destruct (HW time step s) as (Q & _); [left; reflexivity|]. rewrite Q. unfold pyData in H at 1. cbn [fst snd] in H.
    destruct (trajAppend _ _ _ _ _ _ _ _ st) as [st1 [v|e]]; [destruct v; apply IH'; exact H|discriminate].
  - cbn [app map mapCall doCalls] in H. cbn [MEnd.trajCall]. destruct (doCall _ _ _ _ _ TFlush st) as [st1 [v|e]]; [destruct v; apply IH'; exact H|discriminate].
Qed.
(** after CNew and any calls but CNew: no exception *)
Lemma replay_ok log : 0 < U -> quotable """" ctime -> sites <> [] -> (forall t k s, In (t, k, s) (SRun.frames log) -> writable s) -> ~ In MRun.CNew log -> snd (trajDo (MRun.CNew :: log)) = Ok tt.
Proof using Type.
  intros HU HC HS HW HN. destruct (C71_file U (fun _ _ => VNone) (fun _ _ _ => @Raise unit KmcError) u size maxSize maxTime ctime sites (tcallsOf log) HU HC HS) as (st & last & E & _).
  { intros t s y Hi. rewrite tcallsOf_appended in Hi. apply in_map_iff in Hi. destruct Hi as ([[t' k'] x] & Ei & Hi). injection Ei as <- <- <-. destruct (HW _ _ _ Hi) as (_ & W). exact W. }
  unfold MEnd.trajDo. cbn [fold_left MEnd.trajCall fst]. erewrite replay; [reflexivity|exact HW|exact HN|exact E].
Qed.
(** after a flush the file tells of all the frames *)
Lemma replay_file fl {A} (construct : list A -> string -> list (string * pyval) -> outcome A) log : 0 < U -> quotable """" ctime -> sites <> [] -> (forall t k s, In (t, k, s) (SRun.frames log) -> writable s) -> ~ In MRun.CNew log ->
  exists vars, execFile (fun m k => Some (fl m k)) construct (fileAfter (MRun.CNew :: log ++ [MRun.CFlush])) = Ok (mkState vars [] false) /\ fileVars U fl ctime sites (shownFrames (SRun.frames log)) vars.
Proof using Type.
  intros HU HC HS HW HN. destruct (C71_file U fl construct u size maxSize maxTime ctime sites (tcallsOf log) HU HC HS) as (st & last & E & _ & st' & vars & E1 & E2 & E3).
  { intros t s y Hi. rewrite tcallsOf_appended in Hi. apply in_map_iff in Hi. destruct Hi as ([[t' k'] x] & Ei & Hi). injection Ei as <- <- <-. destruct (HW _ _ _ Hi) as (_ & W). exact W. }
  exists vars. rewrite tcallsOf_appended in E3. split; [|exact E3]. unfold MEnd.fileAfter, MEnd.trajDo. cbn [fold_left MEnd.trajCall fst]. rewrite fold_left_app. erewrite replay; [|exact HW|exact HN|exact E]. cbn [fold_left fst MEnd.trajCall doCall]. rewrite E1. cbn [fst]. exact E2.
Qed.
(** the calls after the flush do not touch the file *)
Lemma replay_after log tail : (forall c, In c tail -> exists k, c = MRun.CFinalize k) -> fileAfter (log ++ tail) = fileAfter log.
Proof using Type.
  intros H. unfold MEnd.fileAfter, MEnd.trajDo. rewrite fold_left_app. generalize (fold_left (fun st c => trajCall c (fst st)) log ((mkLT [] [] [] "", 0), Ok tt)) as st. induction tail as [|c tail IH]; intros st; [reflexivity|]. cbn [fold_left]. rewrite IH by (intros; apply H; right; assumption).
  destruct (H c (or_introl eq_refl)) as [k ->]. reflexivity.
Qed.
(** the answers of the trajectory are never exceptions *)
Lemma traj_fine others log c : 0 < U -> quotable """" ctime -> sites <> [] -> (forall t k s, In (t, k, s) (SRun.frames (log ++ [c])) -> writable s) -> ~ In MRun.CNew (log ++ [c]) -> (c = MRun.CFlush \/ exists t k s, c = MRun.CAppend t k s) ->
  withTrajectory U u kc ctime sites size maxSize maxTime ticks others (MRun.CNew :: log ++ [c]) = MRun.Ok 0.
Proof using Type.
  intros HU HC HS HW HN Hc. pose proof (replay_ok (log ++ [c]) HU HC HS HW HN) as E. unfold withTrajectory. rewrite E. change (MRun.CNew :: log ++ [c]) with ((MRun.CNew :: log) ++ [c]). rewrite rev_app_distr. cbn [rev app]. destruct Hc as [->|(t & k & s & ->)]; reflexivity.
Qed.
End File.
