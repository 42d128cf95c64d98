(** Lemmas on trajectory files. *)
From Verif Require Export STrajectory PTypes.
Open Scope string_scope.
Open Scope list_scope.
Open Scope Z_scope.

Lemma sapp_assoc a b c : ((a ++ b) ++ c)%string = (a ++ (b ++ c))%string.
Proof. induction a as [|x a IH]; [reflexivity|]. cbn. rewrite IH. reflexivity. Qed.
Lemma sapp_nil a : (a ++ "")%string = a.
Proof. induction a as [|x a IH]; [reflexivity|]. cbn. rewrite IH. reflexivity. Qed.
Lemma slength_app a b : String.length (a ++ b) = (String.length a + String.length b)%nat.
Proof. induction a as [|x a IH]; [reflexivity|]. cbn. rewrite IH. reflexivity. Qed.
Lemma cat_app a b : cat (a ++ b) = (cat a ++ cat b)%string.
Proof. induction a as [|x a IH]; [reflexivity|]. cbn [app cat]. rewrite IH, sapp_assoc. reflexivity. Qed.
Lemma eat_app p s : eat p (p ++ s) = Some s.
Proof. induction p as [|c p IH]; [destruct s; reflexivity|]. cbn. rewrite Ascii.eqb_refl. exact IH. Qed.
Lemma upto_app c a s : without c a -> upto c (a ++ String c s) = Some (a, s).
Proof.
  induction a as [|d a IH]; intros H; [cbn; rewrite Ascii.eqb_refl; reflexivity|]. destruct H as [H1 H2]. cbn [String.append upto]. apply Ascii.eqb_neq in H1. rewrite H1, IH by exact H2. reflexivity.
Qed.
Lemma without_app c a b : without c (a ++ b) <-> without c a /\ without c b.
Proof. induction a as [|d a IH]; cbn; [tauto|]. rewrite IH. tauto. Qed.
Lemma to_int_nonnil z : Z.to_int z <> Decimal.Pos Decimal.Nil /\ Z.to_int z <> Decimal.Neg Decimal.Nil.
Proof.
  assert (H := DecimalZ.of_to z). destruct z as [|p|p]; [split; discriminate| |]; split; intros E; rewrite E in H; discriminate.
Qed.
Lemma readZ_showZ z : readZ (showZ z) = Some z.
Proof. unfold readZ, showZ. destruct (to_int_nonnil z). rewrite NilZero.isi by assumption. cbn [option_map]. rewrite DecimalZ.of_to. reflexivity. Qed.
Definition digitChars : list ascii := list_ascii_of_string "0123456789-".
Lemma showZ_without c z : ~ In c digitChars -> without c (showZ z).
Proof.
  intros H. assert (HD : forall d, In d digitChars -> c <> d) by (intros d Hd ->; contradiction).
  assert (G : forall u, without c (NilEmpty.string_of_uint u)). { induction u; cbn [NilEmpty.string_of_uint without]; [exact I|..]; (split; [apply HD; cbn; tauto|assumption]). }
  assert (G' : forall u, without c (NilZero.string_of_uint u)). { destruct u; [|apply G..]. split; [apply HD; cbn; tauto|exact I]. }
  unfold showZ. destruct (Z.to_int z); cbn [NilZero.string_of_int without]; [apply G'|split; [apply HD; cbn; tauto|apply G']].
Qed.
Ltac digits := apply showZ_without; cbn; intuition discriminate.
Definition white (w : string) : Prop := forall s, skipWhite (w ++ s) = skipWhite s.
Lemma white_blanks n : white (blanks n). Proof. intros s. induction n as [|n IH]; [reflexivity|]. exact IH. Qed.
Lemma white_break n : white (NL ++ blanks n). Proof. intros s. exact (white_blanks n s). Qed.
Lemma white_nil : white "". Proof. intros s. reflexivity. Qed.
Definition inked (s : string) : Prop := forall r, skipWhite (s ++ r) = (s ++ r)%string.
Lemma inked_cons c s : Ascii.eqb c " " = false -> Ascii.eqb c "010" = false -> inked (String c s).
Proof. intros H1 H2 r. cbn. rewrite H1, H2. reflexivity. Qed.

Section Items.
Context {A : Type} (item : string -> option (A * string)) (tx : A -> string).
Lemma readItems_ok (l : list (A * string)) : forall x fuel rest, (forall a, In a (map fst l ++ [x]) -> inked (tx a) /\ forall r, item (tx a ++ r)%string = Some (a, r)) -> (forall a w, In (a, w) l -> white w) -> (length l < fuel)%nat ->
  readItems item fuel (cat (map (fun aw => tx (fst aw) ++ "," ++ snd aw)%string l) ++ tx x ++ "]" ++ rest) = Some (map fst l ++ [x], rest).
Proof.
  induction l as [|[a w] l IH]; intros x fuel rest HI HW HF; (destruct fuel as [|fuel]; [cbn in HF; lia|]); cbn [readItems map cat fst snd app].
  - destruct (HI x (or_introl eq_refl)) as [_ H]. change ("" ++ ?x)%string with x. rewrite H. reflexivity.
  - destruct (HI a (or_introl eq_refl)) as [_ H]. rewrite !sapp_assoc. rewrite H. cbn [obind snd fst]. rewrite (eat_app ",").
    assert (HX : inked (tx (match map fst l with [] => x | b :: _ => b end))) by (apply HI; right; destruct l as [|[b ?] l]; left; reflexivity).
    replace (skipWhite _) with (cat (map (fun aw => tx (fst aw) ++ "," ++ snd aw)%string l) ++ tx x ++ "]" ++ rest)%string.
    + rewrite IH; [reflexivity| | |cbn in HF; lia].
      * intros b Hb. apply HI. right. exact Hb.
      * intros b v Hb. apply (HW b v). right. exact Hb.
    + rewrite (HW a w (or_introl eq_refl)). destruct l as [|[b v] l]; cbn [map cat fst snd] in *; rewrite ?sapp_assoc; [symmetry; apply (HX ("]" ++ rest)%string)|symmetry; apply HX].
Qed.
Lemma items_length (l : list (A * string)) : (length l <= String.length (cat (map (fun aw => tx (fst aw) ++ "," ++ snd aw)%string l)))%nat.
Proof. induction l as [|[a w] l IH]; [reflexivity|]. cbn [map cat length fst snd]. rewrite !slength_app. cbn [String.length]. lia. Qed.
Lemma readList_ok (l : list (A * string)) x fuel rest : (forall a, In a (map fst l ++ [x]) -> inked (tx a) /\ (forall r, eat "]" (tx a ++ r) = None) /\ forall r, item (tx a ++ r)%string = Some (a, r)) -> (forall a w, In (a, w) l -> white w) -> (length l < fuel)%nat ->
  readList item fuel ("[" ++ cat (map (fun aw => tx (fst aw) ++ "," ++ snd aw)%string l) ++ tx x ++ "]" ++ rest) = Some (map fst l ++ [x], rest).
Proof.
  intros HI HW HF. unfold readList. rewrite (eat_app "["). cbn [obind]. replace (eat "]" _) with (@None string).
  - apply readItems_ok; [|exact HW|exact HF]. intros a Ha. destruct (HI a Ha) as (H1 & _ & H2). split; assumption.
  - symmetry. destruct l as [|[b v] l]; cbn [map cat fst snd app] in *; rewrite ?sapp_assoc; [|apply HI; left; reflexivity]. apply (proj1 (proj2 (HI x (or_introl eq_refl)))).
Qed.
End Items.

(** ** names *)
Definition nameText (s : string) : string := (DQ ++ s ++ DQ)%string.
Definition okName (s : string) : Prop := without """" s.
Lemma readName_ok s r : okName s -> readName (nameText s ++ r) = Some (s, r).
Proof. intros H. unfold readName, nameText. rewrite !sapp_assoc, eat_app. cbn [obind]. apply (upto_app """"%char). exact H. Qed.
Lemma nameText_inked s : inked (nameText s). Proof. apply inked_cons; reflexivity. Qed.
Lemma plainRows_ok names : forall row, exists l, plainRows (map VStr names) row = Ok (cat (map (fun aw => nameText (fst aw) ++ "," ++ snd aw)%string l)) /\ map fst l = names /\ forall a w, In (a, w) l -> white w.
Proof.
  induction names as [|s names IH]; intros row; [exists []; cbn; intuition|]. cbn [map plainRows]. destruct (70 <=? row + (slen s + 2)).
  - destruct (IH 14) as (l & E & El & Hl). exists ((s, (NL ++ blanks 14)%string) :: l). rewrite E. cbn [MPy.obind map cat fst snd]. unfold nameText. rewrite !sapp_assoc. split; [reflexivity|]. split; [cbn; rewrite El; reflexivity|].
    intros a w [Ha|Ha]; [injection Ha as <- <-; apply (white_break 14)|eauto].
  - destruct (IH (row + (slen s + 2))) as (l & E & El & Hl). exists ((s, ""%string) :: l). rewrite E. cbn [MPy.obind map cat fst snd]. unfold nameText. rewrite !sapp_assoc. split; [reflexivity|]. split; [cbn; rewrite El; reflexivity|].
    intros a w [Ha|Ha]; [injection Ha as <- <-; apply white_nil|eauto].
Qed.
(** ** pairs *)
Definition pairText (p : Z * string) : string := ("(" ++ showZ (fst p) ++ "," ++ nameText (snd p) ++ ")")%string.
Lemma readPair_ok p r : okName (snd p) -> readPair (pairText p ++ r) = Some (p, r).
Proof.
  intros H. destruct p as [n s]. unfold readPair, pairText. cbn [fst snd] in *. rewrite !sapp_assoc, eat_app. cbn [obind]. change ("," ++ ?x)%string with (String "," x). rewrite (upto_app ","%char) by digits. cbn [obind fst snd]. rewrite readZ_showZ. cbn [obind]. rewrite readName_ok by exact H. cbn [obind fst snd]. rewrite eat_app. reflexivity.
Qed.
Lemma pairText_inked p : inked (pairText p). Proof. apply inked_cons; reflexivity. Qed.
Lemma entryText_ok n s : entryText [VInt n; VStr s] = Ok (pairText (n, s)).
Proof. unfold entryText, pairText, nameText. cbn [fst_ snd_ MPy.obind fst snd]. rewrite !sapp_assoc. reflexivity. Qed.
Definition mkPair (p : Z * string) : list pyval := [VInt (fst p); VStr (snd p)].
Definition bucketText (b : list (Z * string)) : string :=
  match b with [] => "[]" | _ => ("[" ++ cat (map (fun p => pairText p ++ ",")%string (removelast b)) ++ pairText (last b (0, "")) ++ "]")%string end.
Lemma oall_map {A B C} (f : B -> outcome C) (g : A -> B) (h : A -> C) l : (forall a, In a l -> f (g a) = Ok (h a)) -> oall f (map g l) = Ok (map h l).
Proof. induction l as [|a l IH]; intros H; [reflexivity|]. cbn [map oall]. rewrite H by (left; reflexivity). cbn [MPy.obind]. rewrite IH by (intros; apply H; right; assumption). reflexivity. Qed.
Lemma removelast_map {A B} (f : A -> B) l : removelast (map f l) = map f (removelast l).
Proof. induction l as [|a [|b l] IH]; [reflexivity..|]. cbn [map removelast] in *. rewrite IH. reflexivity. Qed.
Lemma last_map {A B} (f : A -> B) l d e : l <> [] -> last (map f l) d = f (last l e).
Proof. induction l as [|a [|b l] IH]; intros H; [contradiction|reflexivity|]. cbn [map last] in *. apply IH. discriminate. Qed.
Lemma siteText_ok b : siteText (map mkPair b) = Ok (bucketText b).
Proof.
  destruct b as [|p b]; [reflexivity|]. assert (E : siteText (map mkPair (p :: b)) = (try es <- oall (fun t => try s <- entryText t ;; Ok (s ++ ",")%string) (removelast (map mkPair (p :: b))) ;; try e <- entryText (last (map mkPair (p :: b)) []) ;; Ok ("[" ++ cat es ++ e ++ "]")%string)) by reflexivity.
  rewrite E. rewrite removelast_map, (oall_map _ mkPair (fun p => pairText p ++ ",")%string) by (intros [n s] _; unfold mkPair; cbn [fst snd]; rewrite entryText_ok; reflexivity). cbn [MPy.obind]. rewrite (last_map mkPair _ _ (0, "")) by discriminate.
  destruct (last (p :: b) (0, "")) as [n s] eqn:EL. unfold mkPair. cbn [fst snd]. rewrite entryText_ok. cbn [MPy.obind]. unfold bucketText. rewrite EL. reflexivity.
Qed.
Lemma removelast_last {A} (l : list A) d : l <> [] -> l = removelast l ++ [last l d]. Proof. apply app_removelast_last. Qed.
Lemma removelast_length {A} (l : list A) : l <> [] -> S (length (removelast l)) = length l.
Proof. intros H. destruct l as [|a l]; [contradiction|]. rewrite (removelast_last (a :: l) a) at 2 by exact H. rewrite app_length. cbn. lia. Qed.
Lemma readBucket_ok b fuel r : (forall p, In p b -> okName (snd p)) -> (length b <= fuel)%nat -> readList readPair fuel (bucketText b ++ r) = Some (b, r).
Proof.
  intros HN HF. destruct b as [|p b]; [destruct r; reflexivity|]. set (l := p :: b) in *. assert (Hl : l <> []) by discriminate.
  unfold bucketText. fold l. replace (match l with [] => _ | _ => _ end) with ("[" ++ cat (map (fun p => pairText p ++ ",")%string (removelast l)) ++ pairText (last l (0, "")) ++ "]")%string by reflexivity.
  rewrite !sapp_assoc. replace (map (fun p => pairText p ++ ",")%string (removelast l)) with (map (fun aw => pairText (fst aw) ++ "," ++ snd aw)%string (map (fun p => (p, ""%string)) (removelast l))) by (rewrite map_map; reflexivity).
  assert (EM : map fst (map (fun p : Z * string => (p, ""%string)) (removelast l)) = removelast l) by (rewrite map_map; apply map_id).
  rewrite readList_ok.
  - rewrite EM, <- removelast_last by exact Hl. reflexivity.
  - rewrite EM, <- removelast_last by exact Hl. intros a Ha. split; [apply pairText_inked|]. split; [reflexivity|]. intros r'. apply readPair_ok. apply HN. exact Ha.
  - intros a w Ha. apply in_map_iff in Ha. destruct Ha as (q & Hq & _). injection Hq as <- <-. apply white_nil.
  - rewrite map_length. pose proof (removelast_length l Hl). lia.
Qed.
Lemma bucketText_inked b : inked (bucketText b). Proof. destruct b; apply inked_cons; reflexivity. Qed.
Lemma bucketText_length b : (length b <= String.length (bucketText b))%nat.
Proof.
  destruct b as [|p b]; [cbn; lia|]. set (l := p :: b). unfold bucketText. fold l. replace (match l with [] => _ | _ => _ end) with ("[" ++ cat (map (fun p => pairText p ++ ",")%string (removelast l)) ++ pairText (last l (0, "")) ++ "]")%string by reflexivity.
  pose proof (removelast_length l ltac:(discriminate)) as HL. rewrite !slength_app. cbn [String.length]. assert (G : forall m : list (Z * string), (length m <= String.length (cat (map (fun p => pairText p ++ ",")%string m)))%nat). { induction m as [|q m IH]; [cbn; lia|]. cbn [map cat length]. rewrite !slength_app. cbn [String.length]. lia. }
  specialize (G (removelast l)). lia.
Qed.
(** ** the types of a frame *)
Section Frame.
Context {T : Type} (fmtTime : T -> string) (u : Z).
Lemma collectSame_pairs t : forall seen r, (forall x, In x t -> exists p, x = mkPair p) -> collectSame u t seen = Ok r -> exists l, r = map mkPair l.
Proof.
  induction t as [|t0 t IH]; intros seen r HT H; cbn [collectSame] in H; [injection H as <-; exists []; reflexivity|]. destruct (HT t0 (or_introl eq_refl)) as ([k s] & ->). cbn [mkPair fst_ snd_ MPy.obind fst snd] in H.
  assert (HT' : forall x, In x t -> exists p, x = mkPair p) by (intros; apply HT; right; assumption). destruct (existsb _ seen); [eapply IH; eauto|].
  assert (G : forall k, exists k', ofoldl (fun o t1 => try n1 <- snd_ t1 ;; if pyEq u n1 (VStr s) then try c1 <- fst_ t1 ;; pyAdd u o c1 else Ok o) t (VInt k) = Ok (VInt k')).
  { clear - HT'. induction t as [|t1 t IHt]; intros k; [exists k; reflexivity|]. cbn [ofoldl]. destruct (HT' t1 (or_introl eq_refl)) as ([k1 s1] & ->). cbn [mkPair snd_ fst_ MPy.obind fst snd]. destruct (pyEq u (VStr s1) (VStr s)).
    - cbn [pyAdd MPy.obind asInt]. apply IHt. intros; apply HT'; right; assumption.
    - cbn [MPy.obind]. apply IHt. intros; apply HT'; right; assumption. }
  destruct (G k) as (k' & E). rewrite E in H. cbn [MPy.obind] in H. destruct (collectSame u t (seen ++ [VStr s])) as [rest|e] eqn:ER; cbn [MPy.obind] in H; [|discriminate]. injection H as <-. apply IH in ER; [|exact HT']. destruct ER as (l & ->). exists ((k', s) :: l). reflexivity.
Qed.
Definition counts (e : list string) : list (Z * string) := totals (map (fun s => (1, s)) e).
Lemma toShort_strs els : toShortBucketsFormat u (map (fun e => VList (map VStr e)) els) = Ok (map (fun e => map mkPair (counts e)) els).
Proof.
  unfold toShortBucketsFormat. apply oall_map. intros e _. destruct (collectSame_ok u (shortSite (VList (map VStr e))) _ [] (shortSite_strs _)) as (r & C1 & C2). rewrite fresh_nil in C2. fold (totals (map (fun x => (1, x)) e)) in C2. change (map VStr []) with (@nil pyval) in C1.
  assert (HX : forall x, In x (shortSite (VList (map VStr e))) -> exists p, x = mkPair p).
  { clear. unfold shortSite. intros x Hx. apply in_flat_map in Hx. destruct Hx as (v & Hv & Hx). apply in_map_iff in Hv. destruct Hv as (s & <- & _). destruct Hx as [<-|[]]. exists (1, s). reflexivity. }
  rewrite C1. destruct (collectSame_pairs _ _ _ HX C1) as (l & ->). f_equal. unfold counts. assert (E : omap itemT (map mkPair l) = Some l) by (clear; induction l as [|[k s] l IH]; [reflexivity|]; cbn [map omap]; rewrite IH; reflexivity). congruence.
Qed.
Definition shownText (y : shown) : option string := match typesText u (asPython y) with Ok s => Some s | Raise _ => None end.
Lemma counts_names e s : In s (map snd (counts e)) -> In s e.
Proof. unfold counts, totals. rewrite !map_map. cbn [snd]. rewrite !map_id. apply firsts_In. Qed.
Lemma typesText_ok y : 2 <= sitesShown y ->
  exists s, typesText u (asPython y) = Ok ("types.append(" ++ s ++ ")" ++ NL)%string /\ ((forall s, In s (namesShown y) -> okName s) -> forall rest, exists fuel, (fuel <= String.length s)%nat /\ forall f, (fuel <= f)%nat -> readTypes f (s ++ rest) = Some (asRead y, rest)).
Proof.
  intros H2. destruct y as [names|els]; cbn [asPython sitesShown namesShown asRead] in *; unfold typesText.
  - rewrite removelast_map. assert (Hn : names <> []) by (intros ->; cbn in H2; lia). assert (Hr : removelast names <> []) by (destruct names as [|a [|b names]]; cbn in *; try lia; discriminate).
    destruct (map VStr (removelast names)) as [|v vs] eqn:EV; [destruct (removelast names); [contradiction|discriminate]|]. assert (Hv : exists t, v = VStr t) by (destruct (removelast names); [contradiction|]; injection EV as <- <-; eauto). destruct Hv as [t ->]. rewrite <- EV. clear EV vs t.
    destruct (plainRows_ok (removelast names) 14) as (l & E & El & Hl). rewrite E. cbn [MPy.obind]. rewrite (last_map VStr _ _ "") by exact Hn. exists ("[" ++ cat (map (fun aw => nameText (fst aw) ++ "," ++ snd aw)%string l) ++ nameText (last names "") ++ "]")%string. split.
    + f_equal. unfold nameText. rewrite !sapp_assoc. reflexivity.
    + intros HN rest. exists (S (length l)). split; [rewrite !slength_app; cbn [String.length]; pose proof (items_length nameText l); lia|]. intros f Hf. unfold readTypes. rewrite !sapp_assoc. rewrite readList_ok; [rewrite El, <- removelast_last by exact Hn; reflexivity| |exact Hl|lia].
      rewrite El, <- removelast_last by exact Hn. intros a Ha. split; [apply nameText_inked|]. split; [reflexivity|]. intros r. apply readName_ok, HN, Ha.
  - rewrite removelast_map. assert (Hn : els <> []) by (intros ->; cbn in H2; lia). assert (Hr : removelast els <> []) by (destruct els as [|a [|b els]]; cbn in *; try lia; discriminate).
    destruct (map (fun e => VList (map VStr e)) (removelast els)) as [|v vs] eqn:EV; [destruct (removelast els); [contradiction|discriminate]|]. assert (Hv : exists t, v = VList t) by (destruct (removelast els); [contradiction|]; injection EV as <- <-; eauto). destruct Hv as [t ->]. clear EV vs t.
    rewrite toShort_strs. cbn [MPy.obind]. rewrite removelast_map. rewrite (oall_map _ (fun e => map mkPair (counts e)) (fun e => bucketText (counts e) ++ "," ++ NL ++ blanks 14)%string) by (intros; rewrite siteText_ok; reflexivity). cbn [MPy.obind].
    rewrite (last_map (fun e => map mkPair (counts e)) _ _ []) by exact Hn. rewrite siteText_ok. cbn [MPy.obind].
    set (l := map (fun e => (counts e, NL ++ blanks 14)%string) (removelast els)). exists ("[" ++ cat (map (fun aw => bucketText (fst aw) ++ "," ++ snd aw)%string l) ++ bucketText (counts (last els [])) ++ "]")%string. split.
    + unfold l. rewrite map_map. cbn [fst snd]. rewrite !sapp_assoc. reflexivity.
    + intros HN rest. exists (String.length (cat (map (fun aw => bucketText (fst aw) ++ "," ++ snd aw)%string l) ++ bucketText (counts (last els [])) ++ "]")). split; [rewrite (slength_app "["); lia|]. intros f Hf. unfold readTypes.
      assert (EN : readList readName f (("[" ++ cat (map (fun aw => bucketText (fst aw) ++ "," ++ snd aw)%string l) ++ bucketText (counts (last els [])) ++ "]") ++ rest) = None).
      { unfold readList. rewrite !sapp_assoc, (eat_app "["). cbn [obind]. assert (HB : forall b r, exists r', (bucketText b ++ r)%string = ("[" ++ r')%string). { intros b r. destruct b as [|p b]; [eexists; reflexivity|]. eexists. unfold bucketText. rewrite sapp_assoc. reflexivity. }
        destruct (HB (match l with [] => counts (last els []) | a :: _ => fst a end) (match l with [] => "]" ++ rest | a :: l' => ("," ++ snd a) ++ (cat (map (fun aw => bucketText (fst aw) ++ "," ++ snd aw)%string l') ++ bucketText (counts (last els [])) ++ "]" ++ rest) end)%string) as (r' & HR).
        replace (cat _ ++ bucketText (counts (last els [])) ++ "]" ++ rest)%string with ("[" ++ r')%string by (rewrite <- HR; destruct l; cbn [map cat]; rewrite ?sapp_assoc; reflexivity). cbn [String.append eat Ascii.eqb Bool.eqb]. destruct f; reflexivity. }
      rewrite EN, !sapp_assoc.
      assert (EF : map fst l = map counts (removelast els)) by (unfold l; rewrite map_map; reflexivity).
      assert (EA : map fst l ++ [counts (last els [])] = map counts els). { rewrite EF. transitivity (map counts (removelast els ++ [last els []])); [rewrite map_app; reflexivity|]. rewrite <- removelast_last by exact Hn. reflexivity. }
      rewrite readList_ok with (tx := bucketText).
      * cbn [obind fst snd]. rewrite EA. reflexivity.
      * rewrite EA. intros b Hb. split; [apply bucketText_inked|]. split; [intros r; destruct b; reflexivity|]. intros r. apply readBucket_ok.
        -- apply in_map_iff in Hb. destruct Hb as (e & <- & He). intros p Hp. apply HN. apply in_concat. exists e. split; [exact He|]. apply counts_names. apply in_map. exact Hp.
        -- etransitivity; [apply bucketText_length|]. etransitivity; [|exact Hf]. rewrite <- EA in Hb. apply in_app_or in Hb. rewrite !slength_app. destruct Hb as [Hb|[<-|[]]]; [|lia]. apply in_map_iff in Hb. destruct Hb as (aw & <- & Haw).
           assert (String.length (bucketText (fst aw)) <= String.length (cat (map (fun aw => bucketText (fst aw) ++ "," ++ snd aw)%string l)))%nat; [|lia]. clear - Haw. induction l as [|x l IH]; [destruct Haw|]. cbn [map cat]. rewrite !slength_app. destruct Haw as [->|Haw]; [lia|]. specialize (IH Haw). lia.
      * intros a w Ha. unfold l in Ha. apply in_map_iff in Ha. destruct Ha as (e & He & _). injection He as _ <-. apply (white_break 14).
      * eapply Nat.le_trans; [|exact Hf]. rewrite !slength_app. cbn [String.length]. pose proof (items_length bucketText l). lia.
Qed.
Lemma writeFrame_ok t step y : 2 <= sitesShown y ->
  exists w, writeFrame fmtTime u t step (asPython y) = (w, Ok tt) /\ w <> ""%string /\ (without ")" (fmtTime t) -> (forall s, In s (namesShown y) -> okName s) -> forall rest, readFrame (w ++ rest) = Some (fmtTime t, step, asRead y, rest)).
Proof.
  intros H2. destruct (typesText_ok y H2) as (s & E & HR). unfold writeFrame. rewrite E. eexists. split; [reflexivity|]. split; [discriminate|]. intros HT HN rest. specialize (HR HN). unfold readFrame. rewrite !sapp_assoc, eat_app. cbn [obind].
  change (")" ++ ?x)%string with (String ")" x). rewrite (upto_app ")"%char) by exact HT. cbn [obind fst snd]. rewrite <- (sapp_assoc NL "steps.append("), (eat_app (NL ++ "steps.append(")). cbn [obind].
  change (")" ++ ?x)%string with (String ")" x). rewrite (upto_app ")"%char) by digits. cbn [obind fst snd]. rewrite readZ_showZ. cbn [obind]. rewrite <- (sapp_assoc NL "types.append("), (eat_app (NL ++ "types.append(")). cbn [obind].
  change (String ")" (NL ++ rest)) with ((")" ++ NL) ++ rest)%string. destruct (HR ((")" ++ NL) ++ rest)%string) as (f & HF & HF2). rewrite HF2 by (rewrite slength_app; lia). cbn [obind fst snd]. rewrite eat_app. reflexivity.
Qed.
End Frame.

Lemma appended_app {D} (a b : list (@tcall D)) : appended (a ++ b) = appended a ++ appended b. Proof. apply flat_map_app. Qed.
Lemma appended_map {D E} (f : D -> E) cs : appended (map (mapCall f) cs) = map f (appended cs).
Proof. induction cs as [|[d a b|] cs IH]; [reflexivity|..]; cbn [map mapCall appended flat_map app]; fold (appended (map (mapCall f) cs)); rewrite IH; reflexivity. Qed.
(** ** any sequence of calls *)
Section Calls.
Context {St D : Type} (store : D -> St -> St) (size : St -> Z) (flush : St -> St * outcome unit) (maxSize maxTime : Z).
Context (holds : St -> list D -> Prop) (good : D -> Prop).
Context (Hstore : forall st fs d, holds st fs -> good d -> holds (store d st) (fs ++ [d])).
Context (Hflush : forall st fs, holds st fs -> exists st', flush st = (st', Ok tt) /\ holds st' fs).
Lemma doCalls_ok cs : forall st last fs, (forall d, In d (appended cs) -> good d) -> holds st fs -> exists st' last', doCalls store size flush maxSize maxTime cs (st, last) = ((st', last'), Ok tt) /\ holds st' (fs ++ appended cs).
Proof using Hstore Hflush.
  induction cs as [|c cs IH]; intros st last fs HG HH; cbn [doCalls].
  - exists st, last. rewrite app_nil_r. auto.
  - destruct c as [d a b|]; cbn [doCall fst snd].
    + assert (HH' : holds (store d st) (fs ++ [d])) by (apply Hstore; [exact HH|]; apply HG; left; reflexivity). unfold trajAppend. cbn [fst snd].
      replace (fs ++ appended (TAppend d a b :: cs)) with ((fs ++ [d]) ++ appended cs) by (rewrite <- app_assoc; reflexivity).
      destruct ((maxSize <? size (store d st)) || (maxTime <? a - last)).
      * destruct (Hflush _ _ HH') as (st' & E & HH2). rewrite E. apply IH; [intros; apply HG; right; assumption|exact HH2].
      * apply IH; [intros; apply HG; right; assumption|exact HH'].
    + destruct (Hflush _ _ HH) as (st' & E & HH2). rewrite E. apply IH; [exact HG|exact HH2].
Qed.
End Calls.
Lemma doCalls_app {St D} store size flush ms mt (a b : list (@tcall D)) : forall st : St * Z, doCalls store size flush ms mt (a ++ b) st =
  match doCalls store size flush ms mt a st with (st1, Ok _) => doCalls store size flush ms mt b st1 | (st1, Raise e) => (st1, Raise e) end.
Proof. induction a as [|c a IH]; intros st; [reflexivity|]. cbn [app doCalls]. destruct (doCall store size flush ms mt c st) as [st1 [[]|e]]; [apply IH|reflexivity]. Qed.

Section Lat.
Context {T : Type} (fmtTime : T -> string) (u : Z) (header : string).
Definition pyFrame (d : T * Z * shown) : T * Z * list pyval := (fst (fst d), snd (fst d), asPython (snd d)).
Definition frameText (d : T * Z * shown) : string := fst (writeFrame fmtTime u (fst (fst d)) (snd (fst d)) (asPython (snd d))).
Lemma writeFrames_ok ds : (forall d, In d ds -> 2 <= sitesShown (snd d)) ->
  writeFrames fmtTime u (map (fun d => fst (fst d)) ds) (map (fun d => snd (fst d)) ds) (map (fun d => asPython (snd d)) ds) = (cat (map frameText ds), Ok tt).
Proof.
  induction ds as [|d ds IH]; intros H; [reflexivity|]. cbn [map writeFrames cat]. unfold frameText at 1. destruct (writeFrame_ok fmtTime u (fst (fst d)) (snd (fst d)) (snd d)) as (w & E & _); [apply H; left; reflexivity|]. rewrite E. rewrite IH by (intros; apply H; right; assumption). reflexivity.
Qed.
(** which frames are in the file and which in the buffers *)
Definition latHolds (st : latTraj) (fs : list (T * Z * list pyval)) : Prop := exists done buf, fs = map pyFrame (done ++ buf) /\ (forall d, In d (done ++ buf) -> 2 <= sitesShown (snd d)) /\
  lt_times st = map (fun d => fst (fst d)) buf /\ lt_steps st = map (fun d => snd (fst d)) buf /\ lt_types st = map (fun d => asPython (snd d)) buf /\ lt_file st = (header ++ cat (map frameText done))%string.
Definition latGood (d : T * Z * list pyval) : Prop := exists d', d = pyFrame d' /\ 2 <= sitesShown (snd d').
Lemma latStore_ok st fs d : latHolds st fs -> latGood d -> latHolds (ltStore d st) (fs ++ [d]).
Proof.
  intros (done & buf & E1 & E2 & E3 & E4 & E5 & E6) ([[t s] y] & -> & H2). exists done, (buf ++ [(t, s, y)]). unfold ltStore, pyFrame. cbn [fst snd lt_times lt_steps lt_types lt_file]. rewrite E1, E3, E4, E5, !map_app. cbn [map]. rewrite <- app_assoc. split; [reflexivity|]. split; [|rewrite E6; auto].
  intros d Hd. rewrite app_assoc in Hd. apply in_app_or in Hd. destruct Hd as [Hd|[<-|[]]]; auto.
Qed.
Lemma latFlush_full st fs : latHolds st fs -> exists ds, fs = map pyFrame ds /\ (forall d, In d ds -> 2 <= sitesShown (snd d)) /\ ltFlush fmtTime u st = (mkLT [] [] [] (header ++ cat (map frameText ds)), Ok tt).
Proof.
  intros (done & buf & E1 & E2 & E3 & E4 & E5 & E6). exists (done ++ buf). split; [exact E1|]. split; [exact E2|]. unfold ltFlush. rewrite E3, E4, E5, E6. destruct buf as [|d buf].
  - cbn. rewrite app_nil_r, <- E6. destruct st; cbn in *; subst; reflexivity.
  - rewrite writeFrames_ok by (intros; apply E2, in_or_app; right; assumption). replace (_ && _ && _) with true; [rewrite map_app, cat_app, sapp_assoc; reflexivity|]. symmetry. rewrite !andb_true_iff, !Z.ltb_lt. unfold zlen. rewrite !map_length. cbn [length]. lia.
Qed.
Lemma latFlush_ok st fs : latHolds st fs -> exists st', ltFlush fmtTime u st = (st', Ok tt) /\ latHolds st' fs.
Proof.
  intros H. destruct (latFlush_full st fs H) as (ds & E1 & E2 & E3). eexists. split; [exact E3|]. exists ds, []. rewrite app_nil_r. repeat split; auto.
Qed.
Lemma pyFrame_types d d' : pyFrame d = pyFrame d' -> 2 <= sitesShown (snd d) -> d = d'.
Proof.
  destruct d as [[t s] y], d' as [[t' s'] y']. unfold pyFrame. cbn [fst snd]. intros H H2. injection H as <- <- E. f_equal. destruct y as [l|l], y' as [l'|l']; cbn [asPython sitesShown] in *.
  - f_equal. clear H2. revert l' E. induction l as [|a l IH]; intros [|a' l'] E; try discriminate; [reflexivity|]. injection E as <- E. f_equal. apply IH. exact E.
  - destruct l as [|a l]; [cbn in H2; lia|]. destruct l'; discriminate.
  - destruct l as [|a l]; [cbn in H2; lia|]. destruct l'; discriminate.
  - f_equal. clear H2. assert (I : forall m m' : list string, map VStr m = map VStr m' -> m = m'). { induction m as [|a m IHm]; intros [|a' m'] Em; try discriminate; [reflexivity|]. injection Em as <- Em. f_equal. auto. }
    revert l' E. induction l as [|a l IH]; intros [|a' l'] E; try discriminate; [reflexivity|]. injection E as Ea E. f_equal; auto.
Qed.
Definition readable (d : T * Z * shown) : Prop := without ")" (fmtTime (fst (fst d))) /\ 2 <= sitesShown (snd d) /\ forall s, In s (namesShown (snd d)) -> without """" s.
Lemma framesIn_ok ds : (forall d, In d ds -> readable d) -> framesIn header (header ++ cat (map frameText ds)) = Some (map (fun d => (fmtTime (fst (fst d)), snd (fst d), asRead (snd d))) ds).
Proof.
  intros H. unfold framesIn. rewrite eat_app. cbn [obind]. assert (G : forall f, (length ds <= f)%nat -> readFrames f (cat (map frameText ds)) = Some (map (fun d => (fmtTime (fst (fst d)), snd (fst d), asRead (snd d))) ds)).
  { induction ds as [|d ds IH]; intros f Hf; [destruct f; reflexivity|]. destruct f as [|f]; [cbn in Hf; lia|]. cbn [map cat]. destruct (H d (or_introl eq_refl)) as (R1 & R2 & R3). unfold frameText at 1. destruct (writeFrame_ok fmtTime u (fst (fst d)) (snd (fst d)) (snd d) R2) as (w & E & Hw & HR). rewrite E. cbn [fst].
    destruct w as [|c w]; [contradiction|]. specialize (HR R1 R3 (cat (map frameText ds))). cbn [String.append] in *. cbn [readFrames]. rewrite HR. cbn [obind snd fst]. rewrite IH; [reflexivity|intros; apply H; right; assumption|cbn in Hf; lia]. }
  apply G. clear G. induction ds as [|d ds IH]; [cbn; lia|]. cbn [map cat length]. rewrite slength_app. assert (String.length (frameText d) <> 0)%nat.
  { unfold frameText. destruct (H d (or_introl eq_refl)) as (_ & R2 & _). destruct (writeFrame_ok fmtTime u (fst (fst d)) (snd (fst d)) (snd d) R2) as (w & E & Hw & _). rewrite E. cbn [fst]. destruct w; [contradiction|discriminate]. }
  assert ((length ds <= String.length (cat (map frameText ds)))%nat) by (apply IH; intros; apply H; right; assumption). lia.
Qed.
End Lat.

Section Xyz.
Context {T K : Type} (fmtTime : T -> string) (fmtCoord : K -> string) (header : string) (live : bool).
Lemma okWord_inked s : okWord s -> inked s.
Proof.
  intros (H1 & H2 & H3). destruct s as [|c s]; [contradiction|]. cbn in H2, H3. apply inked_cons; apply Ascii.eqb_neq; intuition congruence.
Qed.
Lemma showZ_word z : okWord (showZ z).
Proof.
  split; [|split; digits]. intros E. pose proof (readZ_showZ z) as H. rewrite E in H. discriminate.
Qed.
Lemma readRow_ok t c j rest : okWord t -> okCoord fmtCoord c -> readRow (xyzRow fmtCoord t c j ++ rest) = Some (t, coordText fmtCoord c, j, rest).
Proof.
  destruct c as [[x y] z]. intros Ht (Hx & Hy & Hz). unfold readRow, xyzRow, pad16, coordText. rewrite !sapp_assoc. change (" " ++ ?x)%string with (String " " x) at 1. cbn [skipWhite Ascii.eqb Bool.eqb orb]. rewrite (white_blanks (16 - String.length t)).
  rewrite (okWord_inked _ Ht). change ("   " ++ ?x)%string with (String " " ("  " ++ x))%string. rewrite (upto_app " "%char) by apply Ht. cbn [obind fst snd]. rewrite (white_blanks 2), (okWord_inked _ Hx). change (" " ++ ?x)%string with (String " " x). rewrite (upto_app " "%char) by apply Hx. cbn [obind fst snd].
  change (" " ++ ?x)%string with (String " " x) at 1. rewrite (upto_app " "%char) by apply Hy. cbn [obind fst snd]. change ("  " ++ ?x)%string with (String " " (" " ++ x))%string. rewrite (upto_app " "%char) by apply Hz. cbn [obind fst snd]. rewrite (white_blanks 1), (okWord_inked _ (showZ_word j)). change (NL ++ ?x)%string with (String "010" x). rewrite (upto_app "010"%char) by digits. cbn [obind fst snd]. rewrite readZ_showZ. reflexivity.
Qed.
Lemma readRows_ok ts : forall cs j rest, length ts = length cs -> (forall t, In t ts -> okWord t) -> (forall c, In c cs -> okCoord fmtCoord c) ->
  exists w, xyzRows fmtCoord ts cs j = (w, Ok tt) /\ readRows (length ts) j (w ++ rest) = Some (combine ts (map (coordText fmtCoord) cs), rest).
Proof.
  induction ts as [|t ts IH]; intros [|c cs] j rest HL HT HC; try discriminate; [exists ""%string; split; reflexivity|]. destruct (IH cs (j + 1) rest) as (w & E & HR); [injection HL as HL; exact HL|intros; apply HT; right; assumption|intros; apply HC; right; assumption|].
  cbn [xyzRows]. rewrite E. eexists. split; [reflexivity|]. cbn [length readRows]. rewrite sapp_assoc, readRow_ok by (first [apply HT|apply HC]; left; reflexivity). cbn [obind]. rewrite Z.eqb_refl, HR. reflexivity.
Qed.
Definition xyzShown (d : T * Z * list string * list (K * K * K)) : string * Z * list (string * (string * string * string)) := let '(t, s, y, c) := d in (fmtTime t, s, combine y (map (coordText fmtCoord) c)).
Definition xyzGood (d : T * Z * list string * list (K * K * K)) : Prop := let '(t, s, y, c) := d in without "010" (fmtTime t) /\ length y = length c /\ (forall n, In n y -> okWord n) /\ (forall p, In p c -> okCoord fmtCoord p).
Definition xyzText (d : T * Z * list string * list (K * K * K)) : string := let '(t, s, y, c) := d in fst (xyzFrame fmtTime fmtCoord t s y c).
Lemma xyzFrame_ok t s y c : xyzGood (t, s, y, c) -> snd (xyzFrame fmtTime fmtCoord t s y c) = Ok tt /\ xyzText (t, s, y, c) <> ""%string /\ forall rest, readXyz (xyzText (t, s, y, c) ++ rest) = Some (xyzShown (t, s, y, c), rest).
Proof.
  intros (H1 & H2 & H3 & H4). unfold xyzText, xyzFrame. destruct (readRows_ok y c 0 "" H2 H3 H4) as (w & E & _). rewrite E. split; [reflexivity|]. split; [discriminate|]. intros rest. destruct (readRows_ok y c 0 rest H2 H3 H4) as (w' & E' & HR). rewrite E in E'. injection E' as <-. cbn [fst]. unfold readXyz. rewrite !sapp_assoc, eat_app. cbn [obind].
  change (NL ++ ?x)%string with (String "010" x). rewrite (upto_app "010"%char) by digits. cbn [obind fst snd]. rewrite readZ_showZ. cbn [obind]. rewrite (white_blanks 10), (okWord_inked _ (showZ_word _)). change (NL ++ ?x)%string with (String "010" x). rewrite (upto_app "010"%char) by digits. cbn [obind fst snd]. rewrite readZ_showZ. cbn [obind]. rewrite eat_app. cbn [obind]. change (NL ++ ?x)%string with (String "010" x). rewrite (upto_app "010"%char) by exact H1. cbn [obind fst snd].
  unfold zlen. rewrite Nat2Z.id, HR. reflexivity.
Qed.
Definition xyzHandle (h : handle) (now : list string) (y : list string) : Prop := deref now h = y.
Lemma xyzFrames_ok now : forall ds hs, Forall2 (fun h d => deref now h = snd (fst d)) hs ds -> (forall d, In d ds -> xyzGood d) ->
  xyzFrames fmtTime fmtCoord now (map (fun d => fst (fst (fst d))) ds) (map (fun d => snd (fst (fst d))) ds) hs (map snd ds) = (cat (map xyzText ds), Ok tt).
Proof.
  intros ds hs HF. induction HF as [|h d hs ds E HF IH]; intros HG; [reflexivity|]. destruct d as [[[t s] y] c]. cbn [map xyzFrames fst snd cat] in *. rewrite E. destruct (xyzFrame_ok t s y c (HG _ (or_introl eq_refl))) as (H & _). unfold xyzText at 1. destruct (xyzFrame fmtTime fmtCoord t s y c) as [w o]. cbn [snd fst] in *. subst o. rewrite IH by (intros; apply HG; right; assumption). reflexivity.
Qed.
(** the types in the buffer are those of the frames, now and later: they are copies, or they never change *)
Definition xyzHolds (now0 : list string) (st : xyzTraj) (fs : list (T * Z * list string * list (K * K * K))) : Prop := exists done buf, fs = done ++ buf /\ (forall d, In d fs -> xyzGood d) /\
  xt_times st = map (fun d => fst (fst (fst d))) buf /\ xt_steps st = map (fun d => snd (fst (fst d))) buf /\ xt_coords st = map snd buf /\ xt_file st = (header ++ cat (map xyzText done))%string /\
  xt_types st = map (fun d => if live then Live else Copied (snd (fst d))) buf /\ (live = true -> xt_now st = now0 /\ forall d, In d fs -> snd (fst d) = now0).
Lemma xtStore_ok now0 st fs d : xyzHolds now0 st fs -> xyzGood d /\ (live = true -> snd (fst d) = now0) -> xyzHolds now0 (xtStore live d st) (fs ++ [d]).
Proof.
  intros (done & buf & E1 & E2 & E3 & E4 & E5 & E6 & E7 & E8) [HG HL]. destruct d as [[[t s] y] c]. exists done, (buf ++ [(t, s, y, c)]). cbn [xtStore fst snd xt_times xt_steps xt_coords xt_file xt_types xt_now] in *. rewrite E1, E3, E4, E5, E6, E7, !map_app, <- app_assoc. split; [reflexivity|]. split; [|repeat (split; [reflexivity|])].
  - intros d Hd. rewrite app_assoc in Hd. apply in_app_or in Hd. rewrite <- E1 in Hd. destruct Hd as [Hd|[<-|[]]]; auto.
  - intros Hl. split; [auto|]. intros d Hd. rewrite app_assoc in Hd. apply in_app_or in Hd. rewrite <- E1 in Hd. destruct Hd as [Hd|[<-|[]]]; [apply E8; auto|auto].
Qed.
Lemma xtFlush_full now0 st fs : xyzHolds now0 st fs -> xtFlush fmtTime fmtCoord st = (mkXT [] [] [] [] (header ++ cat (map xyzText fs)) (xt_now st), Ok tt).
Proof.
  intros (done & buf & E1 & E2 & E3 & E4 & E5 & E6 & E7 & E8). unfold xtFlush. rewrite E3, E4, E5, E6, E7. destruct buf as [|d buf].
  - cbn. rewrite E1, app_nil_r, <- E6. destruct st; cbn in *; subst; reflexivity.
  - rewrite xyzFrames_ok.
    + replace (zlen _ <? 1) with false; [rewrite E1, map_app, cat_app, sapp_assoc; reflexivity|]. symmetry. apply Z.ltb_ge. unfold zlen. rewrite map_length. cbn [length]. lia.
    + assert (HL : forall d', In d' (d :: buf) -> deref (xt_now st) (if live then Live else Copied (snd (fst d'))) = snd (fst d')). { intros d' Hd'. destruct live; [|reflexivity]. cbn [deref]. destruct (E8 eq_refl) as [-> H]. symmetry. apply H. rewrite E1. apply in_or_app. right. exact Hd'. }
      revert HL. generalize (d :: buf). clear. intros l HL. induction l as [|d l IH]; constructor; [apply HL; left; reflexivity|apply IH; intros; apply HL; right; assumption].
    + intros d' Hd'. apply E2. rewrite E1. apply in_or_app. right. exact Hd'.
Qed.
Lemma xtFlush_ok now0 st fs : xyzHolds now0 st fs -> exists st', xtFlush fmtTime fmtCoord st = (st', Ok tt) /\ xyzHolds now0 st' fs.
Proof.
  intros H. eexists. split; [apply (xtFlush_full now0 _ _ H)|]. destruct H as (done & buf & E1 & E2 & E3 & E4 & E5 & E6 & E7 & E8). exists fs, []. rewrite app_nil_r. cbn [map xt_times xt_steps xt_coords xt_file xt_types xt_now]. split; [reflexivity|]. split; [exact E2|]. split; [reflexivity|]. split; [reflexivity|]. split; [reflexivity|]. split; [reflexivity|]. split; [reflexivity|]. exact E8.
Qed.
Lemma xyzIn_ok ds : (forall d, In d ds -> xyzGood d) -> xyzIn header (header ++ cat (map xyzText ds)) = Some (map xyzShown ds).
Proof.
  intros H. unfold xyzIn. rewrite eat_app. cbn [obind]. assert (G : forall f, (length ds <= f)%nat -> readXyzs f (cat (map xyzText ds)) = Some (map xyzShown ds)).
  { induction ds as [|d ds IH]; intros f Hf; [destruct f; reflexivity|]. destruct f as [|f]; [cbn in Hf; lia|]. cbn [map cat]. destruct d as [[[t s] y] c]. destruct (xyzFrame_ok t s y c (H _ (or_introl eq_refl))) as (_ & Hw & HR). destruct (xyzText (t, s, y, c)) as [|a w]; [contradiction|]. specialize (HR (cat (map xyzText ds))). cbn [String.append] in *. cbn [readXyzs]. rewrite HR. cbn [obind snd fst].
    rewrite IH; [reflexivity|intros; apply H; right; assumption|cbn in Hf; lia]. }
  apply G. clear G. induction ds as [|d ds IH]; [cbn; lia|]. cbn [map cat length]. rewrite slength_app. assert (String.length (xyzText d) <> 0)%nat.
  { destruct d as [[[t s] y] c]. destruct (xyzFrame_ok t s y c (H _ (or_introl eq_refl))) as (_ & Hw & _). destruct (xyzText (t, s, y, c)); [contradiction|discriminate]. }
  assert ((length ds <= String.length (cat (map xyzText ds)))%nat) by (apply IH; intros; apply H; right; assumption). lia.
Qed.
End Xyz.
