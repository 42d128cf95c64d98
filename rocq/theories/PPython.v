(** Lemmas on words, statements and programs. *)
From Verif Require Export SPython SScript PFormat PTrajectory.
Open Scope string_scope.
Open Scope list_scope.
Open Scope Z_scope.

(** ** Words *)
Definition prepend (ts : list tok) (o : option (list tok * mode * nat)) : option (list tok * mode * nat) := q <- o ;; let '(us, m, d) := q in Some (ts ++ us, m, d).
Lemma prepend_nil o : prepend [] o = o. Proof. destruct o as [[[us m] d]|]; reflexivity. Qed.
Lemma prepend_app a b o : prepend a (prepend b o) = prepend (a ++ b) o. Proof. destruct o as [[[us m] d]|]; [|reflexivity]. cbn. rewrite app_assoc. reflexivity. Qed.
Lemma run_front m d a ts m1 d1 r : scan m d a = Some (ts, m1, d1) -> scan m d (a ++ r) = prepend ts (scan m1 d1 r).
Proof. intros E. rewrite run_app, E. reflexivity. Qed.
Lemma scan_cons m d c s : scan m d (String c s) = (r <- scanChar m d c ;; let '(ts, m1, d1) := r in prepend ts (scan m1 d1 s)).
Proof. reflexivity. Qed.
(** a complete text *)
Definition lexed (s : string) (ts : list tok) : Prop := forall d r, scan Idle d (s ++ r) = prepend ts (scan Idle d r).
(** a text that is complete if a comma, a closing bracket or the end of the line follows *)
Definition delim (c : ascii) : Prop := In c [","%char; "]"%char; ")"%char; "010"%char].
Definition closes (s : string) (ts : list tok) : Prop := forall d c r, delim c -> scan Idle d (s ++ String c r) = prepend ts (scan Idle d (String c r)).
Lemma lexed_closes s ts : lexed s ts -> closes s ts. Proof. intros H d c r _. apply H. Qed.
Lemma lexed_nil : lexed "" []. Proof. intros d r. rewrite prepend_nil. reflexivity. Qed.
Lemma lexed_app a b ts us : lexed a ts -> lexed b us -> lexed (a ++ b) (ts ++ us).
Proof. intros HA HB d r. rewrite sapp_assoc, HA, HB, prepend_app. reflexivity. Qed.
Lemma lexed_closes_app a b ts us : lexed a ts -> closes b us -> closes (a ++ b) (ts ++ us).
Proof. intros HA HB d c r Hc. rewrite sapp_assoc, HA, HB, prepend_app by exact Hc. reflexivity. Qed.
Lemma lexed_run s ts : (forall d, scan Idle d s = Some (ts, Idle, d)) -> lexed s ts.
Proof. intros H d r. apply run_front, H. Qed.
Lemma lexed_blanks n : lexed (blanks n) []. Proof. apply lexed_run. intros d. apply run_blanks. Qed.
Lemma closes_num s w : (forall d, scan Idle d s = Some ([], InNum w, d)) -> closes s [TNum w].
Proof.
  intros H d c r Hc. rewrite (run_front _ _ _ _ _ _ _ (H d)), prepend_nil, !scan_cons.
  assert (E : scanChar (InNum w) d c = after (TNum w) (scanChar Idle d c)).
  { unfold delim in Hc. cbn [In] in Hc. destruct Hc as [<-|[<-|[<-|[<-|[]]]]]; reflexivity. }
  rewrite E. unfold after. destruct (scanChar Idle d c) as [[[us m] d']|]; [|reflexivity]. cbn [Base.obind]. rewrite prepend_app. reflexivity.
Qed.
Lemma closes_name s w : (forall d, scan Idle d s = Some ([], InName w, d)) -> closes s [TName w].
Proof.
  intros H d c r Hc. rewrite (run_front _ _ _ _ _ _ _ (H d)), prepend_nil, !scan_cons.
  assert (E : scanChar (InName w) d c = after (TName w) (scanChar Idle d c)).
  { unfold delim in Hc. cbn [In] in Hc. destruct Hc as [<-|[<-|[<-|[<-|[]]]]]; reflexivity. }
  rewrite E. unfold after. destruct (scanChar Idle d c) as [[[us m] d']|]; [|reflexivity]. cbn [Base.obind]. rewrite prepend_app. reflexivity.
Qed.
Lemma run_text q s : quotable q s -> forall w d, scan (InText q w) d (s ++ String q "") = Some ([TText (w ++ s)], Idle, d).
Proof.
  induction s as [|c s IH]; intros HQ w d.
  - cbn. rewrite Ascii.eqb_refl. cbn. rewrite sapp_nil. reflexivity.
  - destruct (HQ c (or_introl eq_refl)) as (H1 & H2 & H3 & H4). cbn [String.append]. rewrite scan_cons. cbn [scanChar]. apply Ascii.eqb_neq in H1, H2, H3, H4. rewrite H1, H2, H3, H4. cbn [orb Base.obind].
    rewrite prepend_nil, IH by (intros x Hx; apply HQ; right; exact Hx). unfold snoc. rewrite sapp_assoc. reflexivity.
Qed.
Lemma lexed_text q s : q = "'"%char \/ q = """"%char -> quotable q s -> lexed (String q (s ++ String q "")) [TText s].
Proof.
  intros Hq HQ. apply lexed_run. intros d. rewrite scan_cons. assert (E : scanChar Idle d q = Some ([], InText q "", d)) by (destruct Hq; subst q; reflexivity). rewrite E. cbn [Base.obind].
  rewrite prepend_nil, run_text by exact HQ. reflexivity.
Qed.
(** text between brackets that means nothing *)
Definition gap (w : string) : Prop := forall d r, scan Idle (Datatypes.S d) (w ++ r) = scan Idle (Datatypes.S d) r.
Lemma gap_nil : gap "". Proof. intros d r. reflexivity. Qed.
Lemma gap_blanks n : gap (blanks n). Proof. intros d r. rewrite (lexed_blanks n), prepend_nil. reflexivity. Qed.
Lemma gap_break n : gap (NL ++ blanks n).
Proof. intros d r. rewrite sapp_assoc. unfold NL at 1. cbn [String.append]. rewrite scan_cons. change (scanChar Idle (Datatypes.S d) "010") with (Some (@nil tok, Idle, Datatypes.S d)). cbn [Base.obind]. rewrite prepend_nil. apply gap_blanks. Qed.
Fixpoint commas (l : list (list tok)) : list tok := match l with [] => [] | [a] => a | a :: l' => a ++ TSym "," :: commas l' end.
Lemma commas_cons a l : l <> [] -> commas (a :: l) = a ++ TSym "," :: commas l. Proof. destruct l; [contradiction|reflexivity]. Qed.
(** items between brackets *)
Definition opens (o k : ascii) : Prop := o = "["%char /\ k = "]"%char \/ o = "("%char /\ k = ")"%char.
Section Items.
Context {A : Type} (tx : A -> string) (tk : A -> list tok).
Lemma lexItems o k (l : list (A * string)) : opens o k -> forall x d r, (forall a, In a (map fst l ++ [x]) -> closes (tx a) (tk a)) -> (forall a w, In (a, w) l -> gap w) ->
  scan Idle (Datatypes.S d) (cat (map (fun aw => tx (fst aw) ++ "," ++ snd aw)%string l) ++ tx x ++ String k r) = prepend (commas (map tk (map fst l ++ [x])) ++ [TSym k]) (scan Idle d r).
Proof.
  intros Hok. assert (Dk : delim k) by (unfold delim; cbn [In]; destruct Hok as [[_ ->]|[_ ->]]; auto). assert (Sk : forall d, scanChar Idle (Datatypes.S d) k = Some ([TSym k], Idle, d)) by (intros; destruct Hok as [[_ ->]|[_ ->]]; reflexivity).
  induction l as [|[a w] l IH]; intros x d r HI HW.
  - cbn [map cat app commas]. change ("" ++ ?y)%string with y. rewrite (HI x (or_introl eq_refl)) by exact Dk. rewrite scan_cons, Sk. cbn [Base.obind]. rewrite prepend_app. reflexivity.
  - cbn [map cat app fst snd]. rewrite !sapp_assoc. change ("," ++ ?y)%string with (String ","%char y). rewrite (HI a (or_introl eq_refl)) by (left; reflexivity). rewrite scan_cons.
    change (scanChar Idle (Datatypes.S d) ",") with (Some ([TSym ","], Idle, Datatypes.S d)). cbn [Base.obind]. rewrite (HW a w (or_introl eq_refl)), IH by first [ (intros; apply HI; right; assumption) | (intros; eapply HW; right; eassumption) ]. rewrite !prepend_app. f_equal.
    rewrite commas_cons by (destruct l; discriminate). rewrite <- !app_assoc. reflexivity.
Qed.
Lemma lexed_items o k (l : list (A * string)) x : opens o k -> (forall a, In a (map fst l ++ [x]) -> closes (tx a) (tk a)) -> (forall a w, In (a, w) l -> gap w) ->
  lexed (String o (cat (map (fun aw => tx (fst aw) ++ "," ++ snd aw)%string l) ++ tx x ++ String k "")) (TSym o :: commas (map tk (map fst l ++ [x])) ++ [TSym k]).
Proof.
  intros Hok HI HW d r. cbn [String.append]. rewrite scan_cons. assert (So : scanChar Idle d o = Some ([TSym o], Idle, Datatypes.S d)) by (destruct Hok as [[-> _]|[-> _]]; reflexivity). rewrite So. cbn [Base.obind]. rewrite !sapp_assoc.
  cbn [String.append]. rewrite (lexItems o k) by assumption. rewrite prepend_app. reflexivity.
Qed.
End Items.

(** ** Expressions *)
Definition parses (e : expr) (ts : list tok) : Prop := forall n rest, (length ts <= n)%nat -> parseExpr n (ts ++ rest) = Some (e, rest).
Ltac fuel n := intros n ? ?; destruct n as [|n]; [cbn in *; lia|].
Lemma parses_num s : parses (ENum s) [TNum s]. Proof. fuel n. reflexivity. Qed.
Lemma parses_text s : parses (EText s) [TText s]. Proof. fuel n. reflexivity. Qed.
Lemma parses_name s : parses (EName s) [TName s]. Proof. fuel n. reflexivity. Qed.
Lemma parses_nil : parses (EList []) [TSym "["; TSym "]"]. Proof. fuel n. reflexivity. Qed.
Lemma parses_nonempty e ts : parses e ts -> ts <> [].
Proof. intros H ->. specialize (H O [TName ""] (le_n _)). discriminate. Qed.
(** the first word of an expression is not a closing bracket *)
Lemma parses_front e ts : parses e ts -> exists t ts', ts = t :: ts' /\ isSym "]" t = false /\ t <> TEnd /\ (forall y, t = TName y -> ts' = [] /\ e = EName y).
Proof.
  intros H. destruct ts as [|t ts]; [apply parses_nonempty in H; contradiction|]. exists t, ts. split; [reflexivity|]. specialize (H (length (t :: ts)) [] (le_n _)). rewrite app_nil_r in H. cbn [length parseExpr] in H. split; [|split].
  - destruct t; try reflexivity. cbn [isSym]. destruct (Ascii.eqb_spec "]" c) as [<-|]; [discriminate|reflexivity].
  - intros ->. discriminate.
  - intros y ->. injection H as <- ->. split; reflexivity.
Qed.
Lemma commas_length a l : In a l -> (length a <= length (commas l))%nat.
Proof. induction l as [|b l IH]; [intros []|]. destruct l as [|c l]; [intros [->|[]]; reflexivity|]. rewrite commas_cons by discriminate. rewrite app_length. cbn [length]. intros [->|H]; [lia|]. specialize (IH H). lia. Qed.
Lemma commas_items l : Forall (fun a : list tok => a <> []) l -> (length l <= length (commas l))%nat.
Proof. induction 1 as [|a l Ha Hl IH]; [reflexivity|]. destruct l as [|c l]; [destruct a; [contradiction|cbn; lia]|]. rewrite commas_cons by discriminate. rewrite app_length. cbn [length] in *. lia. Qed.
Lemma parseItems_ok item k (l : list (expr * list tok)) : k = "]"%char \/ k = ")"%char -> l <> [] -> (forall e ts rest, In (e, ts) l -> item (ts ++ rest) = Some (e, rest)) -> forall m rest, (length l <= m)%nat ->
  parseItems item m k (commas (map snd l) ++ TSym k :: rest) = Some (map fst l, rest).
Proof.
  intros Hk. induction l as [|[e ts] l IH]; intros Hn HI m rest Hm; [contradiction|]. destruct m as [|m]; [cbn in Hm; lia|]. cbn [parseItems map fst snd]. destruct l as [|b l].
  - cbn [map commas]. rewrite (HI e ts) by (left; reflexivity). cbn [Base.obind snd fst]. destruct Hk as [->| ->]; reflexivity.
  - rewrite commas_cons by discriminate. rewrite <- app_assoc, (HI e ts) by (left; reflexivity). cbn [Base.obind snd fst app isSym]. change (Ascii.eqb "," ",") with true. cbv iota.
    rewrite IH by first [discriminate | (intros; apply HI; right; assumption) | (cbn [length] in *; lia)]. reflexivity.
Qed.
Lemma parses_items (l : list (expr * list tok)) n : (forall e ts, In (e, ts) l -> parses e ts) -> (length (commas (map snd l)) <= n)%nat -> forall e ts rest, In (e, ts) l -> parseExpr n (ts ++ rest) = Some (e, rest).
Proof. intros HP Hn e ts rest Hin. apply (HP e ts Hin). etransitivity; [|exact Hn]. apply commas_length. apply in_map_iff. exists (e, ts). auto. Qed.
Lemma items_nonempty (l : list (expr * list tok)) : (forall e ts, In (e, ts) l -> parses e ts) -> Forall (fun a : list tok => a <> []) (map snd l).
Proof. intros HP. apply Forall_map, Forall_forall. intros [e ts] Hin. exact (parses_nonempty e ts (HP e ts Hin)). Qed.
Lemma parses_list (l : list (expr * list tok)) : l <> [] -> (forall e ts, In (e, ts) l -> parses e ts) -> parses (EList (map fst l)) (TSym "[" :: commas (map snd l) ++ [TSym "]"]).
Proof.
  intros Hn HP n rest Hl. destruct n as [|n]; [cbn in Hl; lia|]. cbn [length] in Hl. rewrite app_length in Hl. cbn [length] in Hl. cbn [app parseExpr]. change (Ascii.eqb "[" "[") with true. cbv iota. rewrite <- app_assoc. cbn [app].
  pose proof (commas_items _ (items_nonempty l HP)) as HC. rewrite map_length in HC.
  pose proof (parseItems_ok (parseExpr n) "]" l (or_introl eq_refl) Hn (parses_items l n HP ltac:(lia)) (length (commas (map snd l) ++ TSym "]" :: rest)) rest ltac:(rewrite app_length; lia)) as EP.
  destruct (commas (map snd l)) as [|t ts] eqn:EC; [destruct l; [contradiction|cbn in HC; lia]|]. cbn [app] in *.
  assert (Ht : isSym "]" t = false). { destruct l as [|[e ts'] l]; [contradiction|]. destruct (parses_front e ts' (HP e ts' (or_introl eq_refl))) as (t' & ts'' & -> & Ht & _). destruct l; [cbn in EC|cbn [map snd] in EC; rewrite commas_cons in EC by discriminate; cbn in EC]; injection EC as <- _; exact Ht. }
  rewrite Ht, EP. reflexivity.
Qed.
Lemma parses_tuple (l : list (expr * list tok)) : (2 <= length l)%nat -> (forall e ts, In (e, ts) l -> parses e ts) -> parses (ETuple (map fst l)) (TSym "(" :: commas (map snd l) ++ [TSym ")"]).
Proof.
  intros Hn HP n rest Hl. destruct n as [|n]; [cbn in Hl; lia|]. cbn [length] in Hl. rewrite app_length in Hl. cbn [length] in Hl. cbn [app parseExpr]. change (Ascii.eqb "(" "[") with false. change (Ascii.eqb "(" "(") with true. cbv iota. rewrite <- app_assoc. cbn [app].
  pose proof (commas_items _ (items_nonempty l HP)) as HC. rewrite map_length in HC.
  rewrite (parseItems_ok (parseExpr n) ")" l (or_intror eq_refl)); [|destruct l; [cbn in Hn; lia|discriminate]|apply parses_items; [exact HP|lia]|rewrite app_length; lia]. cbn [Base.obind fst snd]. destruct l as [|a [|b l]]; [cbn in Hn; lia..|]. reflexivity.
Qed.

(** ** Statements *)
Definition stmtOf (c : stmt) (ts : list tok) : Prop := (exists y ts', ts = TName y :: ts') /\ forall rest, parseStmt (ts ++ rest) = Some (c, rest).
Lemma stmt_set x e ts : parses e ts -> stmtOf (SSet x e) (TName x :: TSym "=" :: ts ++ [TEnd]).
Proof.
  intros H. split; [eexists; eexists; reflexivity|]. intros rest. cbn [app]. rewrite <- app_assoc. cbn [app]. pose proof (H (length (ts ++ TEnd :: rest)) (TEnd :: rest) ltac:(rewrite app_length; lia)) as E.
  destruct (parses_front e ts H) as (t & ts' & -> & _ & _ & Hy). cbn [app] in *. destruct t as [y|s|s|s|]; try (cbn [parseStmt]; rewrite E; reflexivity). destruct (Hy y eq_refl) as [-> ->]. reflexivity.
Qed.
Lemma stmt_append x e ts : parses e ts -> stmtOf (SAppend x e) (TName x :: TSym "." :: TName "append" :: TSym "(" :: ts ++ [TSym ")"; TEnd]).
Proof.
  intros H. split; [eexists; eexists; reflexivity|]. intros rest. cbn [app]. rewrite <- app_assoc. cbn [app parseStmt]. change (String.eqb "append" "append") with true. cbv iota. rewrite H by (rewrite app_length; lia). reflexivity.
Qed.
Lemma parseArgs_ok (l : list (string * expr * list tok)) : l <> [] -> (forall k e ts, In (k, e, ts) l -> parses e ts) -> forall m rest, (length l <= m)%nat ->
  parseArgs m (commas (map (fun a => TName (fst (fst a)) :: TSym "=" :: snd a) l) ++ TSym ")" :: rest) = Some (map fst l, rest).
Proof.
  induction l as [|[[k e] ts] l IH]; intros Hn HI m rest Hm; [contradiction|]. destruct m as [|m]; [cbn in Hm; lia|]. cbn [map fst snd]. pose proof (HI k e ts (or_introl eq_refl)) as HP. destruct l as [|b l].
  - cbn [map commas app parseArgs]. rewrite HP by (rewrite app_length; lia). reflexivity.
  - rewrite commas_cons by discriminate. cbn [app parseArgs]. rewrite <- app_assoc, HP by (rewrite app_length; lia). cbn [Base.obind snd fst app]. change (Ascii.eqb "," ",") with true. cbv iota.
    rewrite IH by first [discriminate | (intros; eapply HI; right; eassumption) | (cbn [length] in *; lia)]. reflexivity.
Qed.
Lemma stmt_call x cls (l : list (string * expr * list tok)) : l <> [] -> (forall k e ts, In (k, e, ts) l -> parses e ts) ->
  stmtOf (SCall x cls (map fst l)) (TName x :: TSym "=" :: TName cls :: TSym "(" :: commas (map (fun a => TName (fst (fst a)) :: TSym "=" :: snd a) l) ++ [TSym ")"; TEnd]).
Proof.
  intros Hn HP. split; [eexists; eexists; reflexivity|]. intros rest. cbn [app]. rewrite <- app_assoc. cbn [app parseStmt].
  assert (HC : (length l <= length (commas (map (fun a => TName (fst (fst a)) :: TSym "=" :: snd a) l)))%nat). { pose proof (commas_items (map (fun a : string * expr * list tok => TName (fst (fst a)) :: TSym "=" :: snd a) l)) as HC. rewrite map_length in HC. apply HC. apply Forall_map, Forall_forall. discriminate. }
  rewrite parseArgs_ok; [reflexivity|exact Hn|exact HP|rewrite app_length; lia].
Qed.
Lemma stmt_import : stmtOf SImport [TName "from"; TName "KMCLib"; TName "import"; TSym "*"; TEnd].
Proof. split; [eexists; eexists; reflexivity|]. intros rest. reflexivity. Qed.

(** ** Files *)
Definition okPiece (p : list tok * option stmt) : Prop := match snd p with Some c => stmtOf c (fst p) | None => fst p = [TEnd] end.
Definition stmtsOf (l : list (list tok * option stmt)) : list stmt := flat_map (fun p => match snd p with Some c => [c] | None => [] end) l.
(** the text consists of whole lines that are these statements *)
Definition fileOf (s : string) (cs : list stmt) : Prop :=
  exists l, Forall okPiece l /\ (forall r, scan Start 0 (s ++ r) = prepend (concat (map fst l)) (scan Start 0 r)) /\ cs = stmtsOf l.
Lemma fileOf_nil : fileOf "" []. Proof. exists []. split; [constructor|]. split; [intros r; rewrite prepend_nil; reflexivity|reflexivity]. Qed.
Lemma fileOf_app a b cs cs' : fileOf a cs -> fileOf b cs' -> fileOf (a ++ b) (cs ++ cs').
Proof.
  intros (l & F & S & ->) (l' & F' & S' & ->). exists (l ++ l'). split; [apply Forall_app; auto|]. split; [|symmetry; apply flat_map_app]. intros r. rewrite sapp_assoc, S, S', prepend_app, map_app, concat_app. reflexivity.
Qed.
Lemma fileOf_blank : fileOf NL []. Proof. exists []. split; [constructor|]. split; [intros r; rewrite prepend_nil; unfold NL; cbn [String.append]; rewrite scan_cons; cbn; rewrite prepend_nil; reflexivity|reflexivity]. Qed.
Lemma fileOf_piece s p : okPiece p -> scan Start 0 s = Some (fst p, Start, O) -> fileOf s (stmtsOf [p]).
Proof. intros HP E. exists [p]. split; [repeat constructor; exact HP|]. split; [|reflexivity]. intros r. rewrite (run_front _ _ _ _ _ _ _ E). cbn. rewrite app_nil_r. reflexivity. Qed.
Lemma fileOf_comment s : scan Start 0 s = Some ([TEnd], Start, O) -> fileOf s []. Proof. intros E. exact (fileOf_piece s ([TEnd], None) eq_refl E). Qed.
Lemma fileOf_stmt s c ts : stmtOf c ts -> scan Start 0 s = Some (ts, Start, O) -> fileOf s [c]. Proof. intros HC E. exact (fileOf_piece s (ts, Some c) HC E). Qed.
Lemma parseStmts_ok l : Forall okPiece l -> forall n, (length (concat (map fst l)) <= n)%nat -> parseStmts n (concat (map fst l)) = Some (stmtsOf l).
Proof.
  induction 1 as [|[ts [c|]] l HP HL IH]; intros n Hn; [destruct n; reflexivity| |]; unfold okPiece in HP; cbn [fst snd] in HP.
  - destruct HP as [(y & ts' & ->) HP]. cbn [map concat fst stmtsOf flat_map snd app] in *. specialize (HP (concat (map fst l))). cbn [app length] in *. destruct n as [|n]; [lia|]. cbn [parseStmts]. rewrite HP. cbn [Base.obind snd fst]. rewrite app_length in Hn. rewrite IH by lia. reflexivity.
  - subst ts. cbn [map concat fst app length] in *. destruct n as [|n]; [lia|]. cbn [parseStmts]. rewrite IH by lia. reflexivity.
Qed.
Lemma fileOf_program s cs : fileOf s cs -> program s = Some cs.
Proof.
  intros (l & F & S & ->). unfold program, words. rewrite <- (sapp_nil s), S. cbn [scan prepend Base.obind]. rewrite app_nil_r. apply parseStmts_ok; [exact F|reflexivity].
Qed.
(** x = value and x.append(value); [h] is the text before the value *)
Lemma fileOf_set h x s e ts : scan Start 0 h = Some ([TName x; TSym "="], Idle, O) -> closes s ts -> parses e ts -> fileOf (h ++ s ++ NL) [SSet x e].
Proof.
  intros E HC HP. apply (fileOf_stmt _ _ _ (stmt_set x e ts HP)). rewrite (run_front _ _ _ _ _ _ _ E). unfold NL. rewrite HC by (unfold delim; cbn [In]; auto). reflexivity.
Qed.
Lemma fileOf_append h x s e ts : scan Start 0 h = Some ([TName x; TSym "."; TName "append"; TSym "("], Idle, 1%nat) -> closes s ts -> parses e ts -> fileOf (h ++ s ++ ")" ++ NL) [SAppend x e].
Proof.
  intros E HC HP. apply (fileOf_stmt _ _ _ (stmt_append x e ts HP)). rewrite (run_front _ _ _ _ _ _ _ E). change (s ++ ")" ++ NL)%string with (s ++ String ")" NL)%string. rewrite HC by (unfold delim; cbn [In]; auto). reflexivity.
Qed.

(** ** Values *)
Section Values.
Context (float : Z -> Z -> option pyval) (lists : bool) (good : list (string * pyval) -> Prop).
(** the value in all good environments *)
Definition evals (e : expr) (v : pyval) : Prop := forall vars, good vars -> evalExpr float lists vars e = Some v.
Lemma eval_list es vs : Forall2 (fun e v => evals e v) es vs -> evals (EList es) (VList vs).
Proof. intros H vars G. unfold evals in *. cbn [evalExpr]. match goal with |- option_map _ (?f es) = _ => assert (E : f es = Some vs) end; [|rewrite E; reflexivity]. induction H as [|e v es vs He H IH]; [reflexivity|]. rewrite (He vars G). cbn [Base.obind]. rewrite IH. reflexivity. Qed.
Lemma eval_tuple es vs : Forall2 (fun e v => evals e v) es vs -> evals (ETuple es) (VTuple vs).
Proof. intros H vars G. unfold evals in *. cbn [evalExpr]. match goal with |- option_map _ (?f es) = _ => assert (E : f es = Some vs) end; [|rewrite E; reflexivity]. induction H as [|e v es vs He H IH]; [reflexivity|]. rewrite (He vars G). cbn [Base.obind]. rewrite IH. reflexivity. Qed.
(** a text with its words, its expression and its value *)
Definition valueText (s : string) (v : pyval) : Prop := exists ts e, closes s ts /\ parses e ts /\ evals e v.
Lemma value_text q s : q = "'"%char \/ q = """"%char -> quotable q s -> valueText (String q (s ++ String q "")) (VStr s).
Proof. intros Hq HQ. exists [TText s], (EText s). split; [apply lexed_closes, lexed_text; assumption|]. split; [apply parses_text|intros vars _; reflexivity]. Qed.
Lemma value_int z : valueText (showZ z) (VInt z).
Proof. exists [TNum (showZ z)], (ENum (showZ z)). split; [apply closes_num, showZ_run|]. split; [apply parses_num|]. intros vars _. cbn [evalExpr]. apply number_showZ. Qed.
Lemma value_float s m k v : denotes s m k -> float m k = Some v -> valueText s v.
Proof. intros (w & E & D) HF. exists [TNum w], (ENum w). split; [apply closes_num, E|]. split; [apply parses_num|]. intros vars _. cbn [evalExpr]. unfold number. rewrite D. exact HF. Qed.
Lemma value_blanks n s v : valueText s v -> valueText (blanks n ++ s) v.
Proof. intros (ts & e & C & P & E). exists ts, e. split; [|auto]. intros d c r Hc. rewrite sapp_assoc, (lexed_blanks n), prepend_nil. apply C, Hc. Qed.
Lemma value_name s v : (forall d, scan Idle d s = Some ([], InName s, d)) -> evals (EName s) v -> valueText s v.
Proof. intros E HV. exists [TName s], (EName s). split; [apply closes_name, E|]. split; [apply parses_name|exact HV]. Qed.
Lemma value_nil : valueText "[]" (VList []).
Proof. exists [TSym "["; TSym "]"], (EList []). split; [apply lexed_closes, lexed_run; intros d; reflexivity|]. split; [apply parses_nil|intros vars _; reflexivity]. Qed.
(** lists: each item with its value and the gap that follows its comma *)
Lemma choose_items {A} (tx : A -> string) (val : A -> pyval) (l : list A) : (forall a, In a l -> valueText (tx a) (val a)) -> exists m : list (A * (expr * list tok)), map fst m = l /\ (forall a e ts, In (a, (e, ts)) m -> closes (tx a) ts /\ parses e ts /\ evals e (val a)).
Proof.
  induction l as [|a l IH]; intros H; [exists []; split; [reflexivity|intros ? ? ? []]|]. destruct (H a (or_introl eq_refl)) as (ts & e & C & P & E). destruct IH as (m & M1 & M2); [intros; apply H; right; assumption|].
  exists ((a, (e, ts)) :: m). split; [cbn; rewrite M1; reflexivity|]. intros a' e' ts' [Hin|Hin]; [injection Hin as <- <- <-; auto|eauto].
Qed.
Lemma value_seq o k {A} (tx : A -> string) (val : A -> pyval) (l : list (A * string)) x : opens o k -> (o = "("%char -> l <> []) -> (forall a, In a (map fst l ++ [x]) -> valueText (tx a) (val a)) -> (forall a w, In (a, w) l -> gap w) ->
  valueText (String o (cat (map (fun aw => tx (fst aw) ++ "," ++ snd aw)%string l) ++ tx x ++ String k "")) ((if Ascii.eqb o "(" then VTuple else VList) (map val (map fst l ++ [x]))).
Proof.
  intros Hok H2 HV HW. destruct (choose_items tx val (map fst l ++ [x]) HV) as (m & M1 & M2).
  assert (Hm : exists m1 y, m = m1 ++ [y]). { destruct (exists_last (l := m)) as (m1 & y & ->); [intros ->; destruct (map fst l); discriminate|]. eauto. }
  destruct Hm as (m1 & y & ->). rewrite map_app in M1. cbn [map] in M1. apply app_inj_tail in M1. destruct M1 as [M1 My].
  assert (EL : exists l', map (fun aw => (fst (fst aw), snd aw)) l' = l /\ map fst l' = m1). { clear - M1. revert m1 M1. induction l as [|[a w] l IH]; intros [|b m1] M1; try discriminate; [exists []; split; reflexivity|]. injection M1 as E M1. destruct (IH m1 M1) as (l' & E1 & E2). exists ((b, w) :: l'). cbn. rewrite E1, E2, E. split; reflexivity. }
  destruct EL as (l' & EL & EM). rewrite <- EL in *. clear EL.
  exists (TSym o :: commas (map (fun b : A * (expr * list tok) => snd (snd b)) (m1 ++ [y])) ++ [TSym k]), ((if Ascii.eqb o "(" then ETuple else EList) (map (fun b => fst (snd b)) (m1 ++ [y]))). split; [|split].
  - apply lexed_closes. pose proof (lexed_items (fun b : A * (expr * list tok) => tx (fst b)) (fun b => snd (snd b)) o k l' y Hok) as HL. rewrite EM in HL. rewrite map_map. cbn [fst snd] in *. rewrite <- My. apply HL.
    + intros [a [e ts]] Hin. exact (proj1 (M2 a e ts Hin)).
    + intros [a et] w Hin. apply (HW a w). apply in_map_iff. exists (a, et, w). auto.
  - rewrite <- (map_map snd snd), <- (map_map snd fst). assert (HP : forall e ts, In (e, ts) (map snd (m1 ++ [y])) -> parses e ts) by (intros e ts Hin; apply in_map_iff in Hin; destruct Hin as ([a [e' ts']] & E & Hin); cbn in E; injection E as -> ->; exact (proj1 (proj2 (M2 a e ts Hin)))).
    destruct Hok as [[-> ->]|[-> ->]].
    + change (Ascii.eqb "[" "(") with false. cbv iota. apply parses_list; [destruct m1; discriminate|exact HP].
    + change (Ascii.eqb "(" "(") with true. cbv iota. apply parses_tuple; [|exact HP]. rewrite map_length, app_length. cbn [length]. assert (m1 <> []); [intros ->; specialize (H2 eq_refl); destruct l'; [apply H2; reflexivity|discriminate]|]. destruct m1; [contradiction|cbn [length]; lia].
  - assert (HF : Forall2 (fun e v => evals e v) (map (fun b => fst (snd b)) (m1 ++ [y])) (map val (map fst (map (fun aw => (fst (fst aw), snd aw)) l') ++ [x]))).
    { rewrite map_map. cbn [fst]. rewrite <- (map_map fst fst), EM, <- My. change [fst y] with (map fst [y]). rewrite <- map_app. clear - M2. induction (m1 ++ [y]) as [|[a [e ts]] m IH]; [constructor|]. constructor; [exact (proj2 (proj2 (M2 a e ts (or_introl eq_refl))))|]. apply IH. intros; eapply M2; right; eassumption. }
    destruct (Ascii.eqb o "("); [apply eval_tuple|apply eval_list]; exact HF.
Qed.
End Values.
