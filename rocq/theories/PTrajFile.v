(** A lattice trajectory file is a program. *)
From Verif Require Export STrajFile MScript PPython.
Open Scope string_scope.
Open Scope list_scope.
Open Scope Z_scope.

Section Proofs.
Context (U : Z) (fl : Z -> Z -> pyval) (HU : 0 < U).
Definition flt (m k : Z) : option pyval := Some (fl m k).
Definition anyVars (vars : list (string * pyval)) : Prop := True.
Notation vt := (valueText flt false anyVars).
Definition siteText3 (s : Z * Z * Z) : string := let '(x, y, z) := s in ("[" ++ fmtF 15 6 U x ++ "," ++ fmtF 15 6 U y ++ "," ++ fmtF 15 6 U z ++ "]")%string.
Lemma value_coordinate x : exists v, vt (fmtF 15 6 U x) v /\ coordinateOf U fl x v.
Proof. destruct (fmtF_denotes 15 6 U x HU ltac:(lia)) as (m & D & W). exists (fl m (-6)). split; [eapply value_float; [exact D|reflexivity]|]. exists m. split; [reflexivity|exact W]. Qed.
Lemma value_three a b c va vb vc : vt a va -> vt b vb -> vt c vc -> vt ("[" ++ a ++ "," ++ b ++ "," ++ c ++ "]") (VList [va; vb; vc]).
Proof.
  intros Ha Hb Hc. pose proof (value_seq flt false anyVars "[" "]" (fun p : string * pyval => fst p) snd [((a, va), ""); ((b, vb), "")] (c, vc) (or_introl (conj eq_refl eq_refl)) ltac:(discriminate)) as H.
  cbn [map fst snd app cat] in H. rewrite !sapp_assoc in H. cbn [String.append] in *. apply H.
  - intros p [<-|[<-|[<-|[]]]]; assumption.
  - intros p w [E|[E|[]]]; injection E as _ <-; apply gap_nil.
Qed.
Lemma value_site s : exists v, vt (siteText3 s) v /\ siteOf U fl s v.
Proof.
  destruct s as [[x y] z]. destruct (value_coordinate x) as (a & A1 & A2), (value_coordinate y) as (b & B1 & B2), (value_coordinate z) as (c & C1 & C2). exists (VList [a; b; c]). split; [apply value_three; assumption|]. exists a, b, c. auto.
Qed.
Lemma choose_Forall2 {A B} (P : A -> B -> Prop) (l : list A) : (forall a, In a l -> exists b, P a b) -> exists l', Forall2 P l l'.
Proof. induction l as [|a l IH]; intros H; [exists []; constructor|]. destruct (H a (or_introl eq_refl)) as [b Hb]. destruct IH as [l' Hl']; [intros; apply H; right; assumption|]. exists (b :: l'). constructor; assumption. Qed.
Lemma Forall2_combine_map {A B} (P : A -> B -> Prop) l l' : Forall2 P l l' -> exists m, map fst m = l /\ map snd m = l' /\ forall a b, In (a, b) m -> P a b.
Proof. induction 1 as [|a b l l' Hab H (m & E1 & E2 & E3)]; [exists []; cbn; intuition|]. exists ((a, b) :: m). cbn. rewrite E1, E2. split; [reflexivity|]. split; [reflexivity|]. intros a' b' [E|E]; [injection E as <- <-; exact Hab|auto]. Qed.
Lemma cat_map_pair {A} (f : A -> string) w l : cat (map (fun s => f s ++ "," ++ w)%string l) = cat (map (fun aw => f (fst aw) ++ "," ++ snd aw)%string (map (fun a => (a, w)) l)).
Proof. rewrite map_map. reflexivity. Qed.
Lemma value_sites sites : sites <> [] -> exists sv, Forall2 (siteOf U fl) sites sv /\
  vt ("[" ++ cat (map (fun s => siteText3 s ++ "," ++ NL ++ blanks 7)%string (removelast sites)) ++ siteText3 (last sites (0, 0, 0)) ++ "]") (VList sv).
Proof.
  intros Hn. destruct (choose_Forall2 (fun s v => vt (siteText3 s) v /\ siteOf U fl s v) sites) as (sv & HF); [intros; apply value_site|]. exists sv. split; [clear Hn; induction HF as [|a v l l' Ha HF IH]; constructor; [exact (proj2 Ha)|exact IH]|].
  destruct (Forall2_combine_map _ _ _ HF) as (m & E1 & E2 & E3). assert (Hm : m <> []) by (intros ->; cbn in E1; subst; contradiction).
  pose proof (value_seq flt false anyVars "[" "]" (fun p : Z * Z * Z * pyval => siteText3 (fst p)) snd (map (fun p => (p, (NL ++ blanks 7)%string)) (removelast m)) (last m (0, 0, 0, VNone)) (or_introl (conj eq_refl eq_refl)) ltac:(discriminate)) as H.
  rewrite map_map in H. cbn [fst] in H. rewrite map_id, <- (removelast_last m) in H by exact Hm. change (Ascii.eqb "[" "(") with false in H. cbv iota in H. rewrite E2 in H. rewrite map_map in H. cbn [fst snd] in H.
  assert (ER : removelast sites = map fst (removelast m)) by (rewrite <- removelast_map, E1; reflexivity). assert (EL : last sites (0, 0, 0) = fst (last m (0, 0, 0, VNone))) by (rewrite <- E1; apply (last_map fst); exact Hm).
  rewrite ER, EL, map_map. apply H.
  - intros [s v] Hin. exact (proj1 (E3 s v Hin)).
  - intros p w Hin. apply in_map_iff in Hin. destruct Hin as (q & E & _). injection E as _ <-. apply (gap_break 7).
Qed.
(** ** Types *)
Definition okNames (y : shown) : Prop := forall s, In s (namesShown y) -> quotable """" s.
Lemma value_nameText s : quotable """" s -> vt (nameText s) (VStr s).
Proof. intros H. apply (value_text flt false anyVars """" s); [right; reflexivity|exact H]. Qed.
Lemma value_pairText p : quotable """" (snd p) -> vt (pairText p) (VTuple [VInt (fst p); VStr (snd p)]).
Proof.
  intros H. pose proof (value_seq flt false anyVars "(" ")" (fun q : string * pyval => fst q) snd [((showZ (fst p), VInt (fst p)), "")] (nameText (snd p), VStr (snd p)) (or_intror (conj eq_refl eq_refl)) ltac:(discriminate)) as HS.
  cbn [map fst snd app cat] in HS. rewrite !sapp_assoc in HS. cbn [String.append] in *. unfold pairText. apply HS.
  - intros q [<-|[<-|[]]]; [apply value_int|apply value_nameText, H].
  - intros q w [E|[]]. injection E as _ <-. apply gap_nil.
Qed.
Lemma value_bucketText b : (forall p, In p b -> quotable """" (snd p)) -> vt (bucketText b) (VList (map (fun p => VTuple [VInt (fst p); VStr (snd p)]) b)).
Proof.
  intros H. destruct b as [|p b]; [apply value_nil|]. set (l := p :: b) in *. assert (Hl : l <> []) by discriminate. replace (bucketText l) with ("[" ++ cat (map (fun p => pairText p ++ ",")%string (removelast l)) ++ pairText (last l (0%Z, "")) ++ "]")%string by reflexivity.
  pose proof (value_seq flt false anyVars "[" "]" pairText (fun p => VTuple [VInt (fst p); VStr (snd p)]) (map (fun p => (p, "")) (removelast l)) (last l (0, "")) (or_introl (conj eq_refl eq_refl)) ltac:(discriminate)) as HS.
  rewrite map_map in HS. cbn [fst] in HS. rewrite map_id, <- (removelast_last l) in HS by exact Hl. change (Ascii.eqb "[" "(") with false in HS. cbv iota in HS. rewrite map_map in HS. cbn [fst snd] in HS. cbn [String.append] in *. apply HS.
  - intros q Hq. apply value_pairText, H, Hq.
  - intros q w Hin. apply in_map_iff in Hin. destruct Hin as (q' & E & _). injection E as _ <-. apply gap_nil.
Qed.
Lemma plainRows_gaps names : forall row, exists l, plainRows (map VStr names) row = Ok (cat (map (fun aw => nameText (fst aw) ++ "," ++ snd aw)%string l)) /\ map fst l = names /\ forall a w, In (a, w) l -> gap w.
Proof.
  induction names as [|s names IH]; intros row; [exists []; cbn; intuition|]. cbn [map plainRows]. destruct (70 <=? row + (slen s + 2)).
  - destruct (IH 14) as (l & E & El & Hl). exists ((s, (NL ++ blanks 14)%string) :: l). rewrite E. cbn [MPy.obind map cat fst snd]. unfold nameText. rewrite !sapp_assoc. split; [reflexivity|]. split; [cbn; rewrite El; reflexivity|].
    intros a w [Ha|Ha]; [injection Ha as <- <-; apply (gap_break 14)|eauto].
  - destruct (IH (row + (slen s + 2))) as (l & E & El & Hl). exists ((s, ""%string) :: l). rewrite E. cbn [MPy.obind map cat fst snd]. unfold nameText. rewrite !sapp_assoc. split; [reflexivity|]. split; [cbn; rewrite El; reflexivity|].
    intros a w [Ha|Ha]; [injection Ha as <- <-; apply gap_nil|eauto].
Qed.
Lemma value_types u y : 2 <= sitesShown y -> okNames y -> exists s, typesText u (asPython y) = Ok ("types.append(" ++ s ++ ")" ++ NL)%string /\ vt s (typesOf y).
Proof.
  intros H2 HN. unfold okNames in HN. destruct y as [names|els]; cbn [asPython sitesShown namesShown typesOf] in *; unfold typesText.
  - rewrite removelast_map. assert (Hn : names <> []) by (intros ->; cbn in H2; lia). assert (Hr : removelast names <> []) by (destruct names as [|a [|b names]]; cbn in *; try lia; discriminate).
    destruct (map VStr (removelast names)) as [|v vs] eqn:EV; [destruct (removelast names); [contradiction|discriminate]|]. assert (Hv : exists t, v = VStr t) by (destruct (removelast names); [contradiction|]; injection EV as <- <-; eauto). destruct Hv as [t ->]. rewrite <- EV. clear EV vs t.
    destruct (plainRows_gaps (removelast names) 14) as (l & E & El & Hl). rewrite E. cbn [MPy.obind]. rewrite (last_map VStr _ _ "") by exact Hn. exists ("[" ++ cat (map (fun aw => nameText (fst aw) ++ "," ++ snd aw)%string l) ++ nameText (last names "") ++ "]")%string. split.
    + f_equal. unfold nameText. rewrite !sapp_assoc. reflexivity.
    + pose proof (value_seq flt false anyVars "[" "]" nameText VStr l (last names "") (or_introl (conj eq_refl eq_refl)) ltac:(discriminate)) as HS. rewrite El, <- removelast_last in HS by exact Hn. change (Ascii.eqb "[" "(") with false in HS. cbv iota in HS. cbn [String.append] in *. apply HS; [|exact Hl].
      intros s Hs. apply value_nameText, HN, Hs.
  - rewrite removelast_map. assert (Hn : els <> []) by (intros ->; cbn in H2; lia). assert (Hr : removelast els <> []) by (destruct els as [|a [|b els]]; cbn in *; try lia; discriminate).
    destruct (map (fun e => VList (map VStr e)) (removelast els)) as [|v vs] eqn:EV; [destruct (removelast els); [contradiction|discriminate]|]. assert (Hv : exists t, v = VList t) by (destruct (removelast els); [contradiction|]; injection EV as <- <-; eauto). destruct Hv as [t ->]. clear EV vs t.
    rewrite toShort_strs. cbn [MPy.obind]. rewrite removelast_map. rewrite (oall_map _ (fun e => map mkPair (counts e)) (fun e => bucketText (counts e) ++ "," ++ NL ++ blanks 14)%string) by (intros; rewrite siteText_ok; reflexivity). cbn [MPy.obind].
    rewrite (last_map (fun e => map mkPair (counts e)) _ _ []) by exact Hn. rewrite siteText_ok. cbn [MPy.obind].
    set (l := map (fun e => (counts e, NL ++ blanks 14)%string) (removelast els)). exists ("[" ++ cat (map (fun aw => bucketText (fst aw) ++ "," ++ snd aw)%string l) ++ bucketText (counts (last els [])) ++ "]")%string. split.
    + unfold l. rewrite map_map. cbn [fst snd]. rewrite !sapp_assoc. reflexivity.
    + assert (EA : map fst l ++ [counts (last els [])] = map counts els). { unfold l. rewrite map_map. cbn [fst]. transitivity (map counts (removelast els ++ [last els []])); [rewrite map_app; reflexivity|]. rewrite <- removelast_last by exact Hn. reflexivity. }
      pose proof (value_seq flt false anyVars "[" "]" bucketText (fun b => VList (map (fun p => VTuple [VInt (fst p); VStr (snd p)]) b)) l (counts (last els [])) (or_introl (conj eq_refl eq_refl)) ltac:(discriminate)) as HS. rewrite EA, map_map in HS. change (Ascii.eqb "[" "(") with false in HS. cbv iota in HS. cbn [String.append] in *. apply HS.
      * intros b Hb. apply in_map_iff in Hb. destruct Hb as (e & <- & He). apply value_bucketText. intros p Hp. apply HN. apply in_concat. exists e. split; [exact He|]. apply counts_names. apply in_map. exact Hp.
      * intros a w Ha. unfold l in Ha. apply in_map_iff in Ha. destruct Ha as (e & He & _). injection He as _ <-. apply (gap_break 14).
Qed.
Lemma value_time t : exists v, vt (fmtE 18 10 U t) v /\ timeOf U fl t v.
Proof. destruct (fmtE_denotes 18 10 U t ltac:(lia) HU) as (m & k & D & N & S). exists (fl m k). split; [eapply value_float; [exact D|reflexivity]|]. exists m, k. auto. Qed.

(** ** Execution *)
Context {A : Type} (construct : list A -> string -> list (string * pyval) -> outcome A).
Notation ex := (exec flt construct).
Definition fileState (ctime : string) (sv tv st ty : list pyval) : @state A :=
  mkState [("version", VStr "2013.1.0"); ("creation_time", VStr ctime); ("sites", VList sv); ("times", VList tv); ("steps", VList st); ("types", VList ty)] [] false.
Lemma evals_eval vars e v : evals flt false anyVars e v -> evalExpr flt false vars e = Some v. Proof. intros H. apply H. exact I. Qed.
Lemma set_stmt h x s v : scan Start 0 h = Some ([TName x; TSym "="], Idle, O) -> vt s v -> exists e, fileOf (h ++ s ++ NL) [SSet x e] /\ evals flt false anyVars e v.
Proof. intros Hh (ts & e & C & P & E). exists e. split; [eapply fileOf_set; eassumption|exact E]. Qed.
Lemma append_stmt h x s v : scan Start 0 h = Some ([TName x; TSym "."; TName "append"; TSym "("], Idle, 1%nat) -> vt s v -> exists e, fileOf (h ++ s ++ ")" ++ NL) [SAppend x e] /\ evals flt false anyVars e v.
Proof. intros Hh (ts & e & C & P & E). exists e. split; [eapply fileOf_append; eassumption|exact E]. Qed.
Lemma run_append x e v cs vars l objs imp : evals flt false anyVars e v -> getVar vars x = Some (VList l) -> ofoldl ex (SAppend x e :: cs) (mkState vars objs imp) = ofoldl ex cs (mkState (setVar vars x (VList (l ++ [v]))) objs imp).
Proof. intros E G. cbn [ofoldl]. unfold exec at 1. cbn [st_vars st_objs st_imported]. rewrite (evals_eval _ _ _ E). cbn [tryEval MPy.obind]. rewrite G. reflexivity. Qed.
Lemma run_set x e v cs vars objs imp : evals flt false anyVars e v -> ofoldl ex (SSet x e :: cs) (mkState vars objs imp) = ofoldl ex cs (mkState (setVar vars x v) objs imp).
Proof. intros E. cbn [ofoldl]. unfold exec at 1. cbn [st_vars st_objs st_imported]. rewrite (evals_eval _ _ _ E). reflexivity. Qed.
Lemma frame_file u d : 2 <= sitesShown (snd d) -> okNames (snd d) -> exists cs v, fileOf (frameText (fmtE 18 10 U) u d) cs /\ timeOf U fl (fst (fst d)) v /\
  forall ctime sv tv st ty, ofoldl ex cs (fileState ctime sv tv st ty) = Ok (fileState ctime sv (tv ++ [v]) (st ++ [VInt (snd (fst d))]) (ty ++ [typesOf (snd d)])).
Proof.
  destruct d as [[t step] y]. cbn [fst snd]. intros H2 HN. destruct (value_time t) as (v & V1 & V2). destruct (value_types u y H2 HN) as (s & ET & VS).
  destruct (append_stmt "times.append(" "times" _ _ eq_refl V1) as (e1 & F1 & E1). destruct (append_stmt "steps.append(" "steps" _ _ eq_refl (value_int flt false anyVars step)) as (e2 & F2 & E2). destruct (append_stmt "types.append(" "types" _ _ eq_refl VS) as (e3 & F3 & E3).
  exists ([SAppend "times" e1] ++ [SAppend "steps" e2] ++ [SAppend "types" e3]), v. split; [|split; [exact V2|]].
  - unfold frameText, writeFrame. cbn [fst snd]. rewrite ET. cbn [fst]. pose proof (fileOf_app _ _ _ _ F1 (fileOf_app _ _ _ _ F2 F3)) as F. rewrite !sapp_assoc in *. exact F.
  - intros ctime sv tv st ty. unfold fileState. cbn [app]. erewrite run_append by (exact E1 || reflexivity). erewrite run_append by (exact E2 || reflexivity). erewrite run_append by (exact E3 || reflexivity). reflexivity.
Qed.
Lemma ofoldl_app {S B} (f : S -> B -> outcome S) l1 l2 s : ofoldl f (l1 ++ l2) s = (try s1 <- ofoldl f l1 s ;; ofoldl f l2 s1).
Proof. revert s. induction l1 as [|b l1 IH]; intros s; [reflexivity|]. cbn [app ofoldl]. destruct (f s b); [apply IH|reflexivity]. Qed.
Lemma frames_file u ds : (forall d, In d ds -> 2 <= sitesShown (snd d) /\ okNames (snd d)) -> exists cs tv, fileOf (cat (map (frameText (fmtE 18 10 U) u) ds)) cs /\ Forall2 (fun f v => timeOf U fl (fst (fst f)) v) ds tv /\
  forall ctime sv tv0 st ty, ofoldl ex cs (fileState ctime sv tv0 st ty) = Ok (fileState ctime sv (tv0 ++ tv) (st ++ map (fun f => VInt (snd (fst f))) ds) (ty ++ map (fun f => typesOf (snd f)) ds)).
Proof.
  induction ds as [|d ds IH]; intros H.
  - exists [], []. split; [apply fileOf_nil|]. split; [constructor|]. intros. cbn [ofoldl map]. rewrite !app_nil_r. reflexivity.
  - destruct (frame_file u d) as (cs & v & F & T & X); [apply H; left; reflexivity..|]. destruct IH as (cs' & tv & F' & T' & X'); [intros; apply H; right; assumption|]. exists (cs ++ cs'), (v :: tv). split; [cbn [map cat]; apply fileOf_app; assumption|]. split; [constructor; assumption|].
    intros. rewrite ofoldl_app, X. cbn [MPy.obind]. rewrite X'. cbn [map]. rewrite <- !app_assoc. reflexivity.
Qed.
Lemma header_file ctime sites : quotable """" ctime -> sites <> [] -> exists cs sv, fileOf (latHeader (fmtF 15 6 U) ctime sites) cs /\ Forall2 (siteOf U fl) sites sv /\ ofoldl ex cs (mkState [] [] false) = Ok (fileState ctime sv [] [] []).
Proof.
  intros HC Hn. destruct (value_sites sites Hn) as (sv & SV & VV).
  assert (F0 : fileOf ("# KMCLib Trajectory" ++ NL) []) by (apply fileOf_comment; reflexivity).
  destruct (set_stmt "version=" "version" _ _ eq_refl (value_nameText "2013.1.0" ltac:(intros c Hc; cbn in Hc; repeat (destruct Hc as [<-|Hc]; [repeat split; discriminate|]); destruct Hc))) as (e1 & F1 & E1).
  destruct (set_stmt "creation_time=" "creation_time" _ _ eq_refl (value_nameText ctime HC)) as (e2 & F2 & E2).
  destruct (set_stmt "sites=" "sites" _ _ eq_refl VV) as (e3 & F3 & E3).
  destruct (set_stmt "times=" "times" _ _ eq_refl (value_nil flt false anyVars)) as (e4 & F4 & E4). destruct (set_stmt "steps=" "steps" _ _ eq_refl (value_nil flt false anyVars)) as (e5 & F5 & E5). destruct (set_stmt "types=" "types" _ _ eq_refl (value_nil flt false anyVars)) as (e6 & F6 & E6).
  eexists. exists sv. split; [|split; [exact SV|]].
  - pose proof (fileOf_app _ _ _ _ F0 (fileOf_app _ _ _ _ F1 (fileOf_app _ _ _ _ F2 (fileOf_app _ _ _ _ F3 (fileOf_app _ _ _ _ F4 (fileOf_app _ _ _ _ F5 F6)))))) as F.
    assert (EH : latHeader (fmtF 15 6 U) ctime sites = (("# KMCLib Trajectory" ++ NL) ++ ("version=" ++ nameText "2013.1.0" ++ NL) ++ ("creation_time=" ++ nameText ctime ++ NL) ++
      ("sites=" ++ ("[" ++ cat (map (fun s => siteText3 s ++ "," ++ NL ++ blanks 7) (removelast sites)) ++ siteText3 (last sites (0, 0, 0)%Z) ++ "]") ++ NL) ++ ("times=" ++ "[]" ++ NL) ++ ("steps=" ++ "[]" ++ NL) ++ "types=" ++ "[]" ++ NL)%string).
    { assert (ER : rev sites = last sites (0, 0, 0) :: rev (removelast sites)) by (rewrite (removelast_last sites (0, 0, 0) Hn) at 1; rewrite rev_app_distr; reflexivity).
      unfold latHeader, nameText. rewrite ER. fold siteText3. rewrite !sapp_assoc. reflexivity. }
    rewrite EH. exact F.
  - cbn [app]. rewrite (run_set _ _ _ _ _ _ _ E1), (run_set _ _ _ _ _ _ _ E2), (run_set _ _ _ _ _ _ _ E3), (run_set _ _ _ _ _ _ _ E4), (run_set _ _ _ _ _ _ _ E5), (run_set _ _ _ _ _ _ _ E6). reflexivity.
Qed.
Lemma file_vars u ctime sites ds : quotable """" ctime -> sites <> [] -> (forall d, In d ds -> 2 <= sitesShown (snd d) /\ okNames (snd d)) ->
  exists vars, execFile flt construct (latHeader (fmtF 15 6 U) ctime sites ++ cat (map (frameText (fmtE 18 10 U) u) ds)) = Ok (mkState vars [] false) /\ fileVars U fl ctime sites ds vars.
Proof.
  intros HC Hn HD. destruct (header_file ctime sites HC Hn) as (cs & sv & F & SV & X). destruct (frames_file u ds HD) as (cs' & tv & F' & TV & X'). unfold execFile. rewrite (fileOf_program _ _ (fileOf_app _ _ _ _ F F')). cbn [tryEval MPy.obind]. rewrite ofoldl_app, X. cbn [MPy.obind]. rewrite X'.
  eexists. split; [reflexivity|]. exists sv, tv. auto.
Qed.
End Proofs.
