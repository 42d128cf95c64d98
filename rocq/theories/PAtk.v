(** Proofs about the script for ATK. *)
From Verif Require Import PBase MAtk SAtk PFormat PPython PPrint PScript.
From Coq Require Import ZifyBool.
Open Scope string_scope.
Open Scope list_scope.
Open Scope Z_scope.

(** ** Texts and expressions *)
Definition textOf (s : string) (e : expr) : Prop := exists ts, closes s ts /\ parses e ts.
Lemma list_text {A} (tx : A -> string) (Rel : A -> expr -> Prop) (l : list (A * string)) x : (forall a, In a (map fst l ++ [x]) -> exists e, textOf (tx a) e /\ Rel a e) -> (forall a w, In (a, w) l -> gap w) ->
  exists es, textOf (String "[" (cat (map (fun aw => tx (fst aw) ++ "," ++ snd aw)%string l) ++ tx x ++ "]")) (EList es) /\ Forall2 Rel (map fst l ++ [x]) es.
Proof.
  intros HV HW. assert (CH : exists m : list (A * string * (expr * list tok)), map fst m = l /\ forall a w e ts, In (a, w, (e, ts)) m -> closes (tx a) ts /\ parses e ts /\ Rel a e).
  { clear HW. induction l as [|[a w] l IH]; [exists []; split; [reflexivity|intros ? ? ? ? []]|]. destruct (HV a (or_introl eq_refl)) as (e & (ts & C & P) & E). destruct IH as (m & M1 & M2); [intros b Hb; apply HV; right; exact Hb|].
    exists ((a, w, (e, ts)) :: m). split; [cbn; rewrite M1; reflexivity|]. intros a' w' e' ts' [Hin|Hin]; [injection Hin as <- <- <- <-; auto|eauto]. }
  destruct CH as (m & M1 & M2). destruct (HV x) as (ex & (tsx & Cx & Px) & Rx); [apply in_app_iff; right; left; reflexivity|].
  set (m' := map (fun b : A * string * (expr * list tok) => ((fst (fst b), snd b), snd (fst b))) m). exists (map (fun b => fst (snd b)) m ++ [ex]). split.
  - exists (TSym "[" :: commas (map (fun b : A * (expr * list tok) => snd (snd b)) (map fst m' ++ [(x, (ex, tsx))])) ++ [TSym "]"]). split.
    + apply lexed_closes. pose proof (lexed_items (fun b : A * (expr * list tok) => tx (fst b)) (fun b => snd (snd b)) "[" "]" m' (x, (ex, tsx)) (or_introl (conj eq_refl eq_refl))) as HL. cbn [fst snd] in HL.
      assert (E : map (fun aw : A * (expr * list tok) * string => tx (fst (fst aw)) ++ "," ++ snd aw)%string m' = map (fun aw => tx (fst aw) ++ "," ++ snd aw)%string l) by (rewrite <- M1; unfold m'; rewrite !map_map; reflexivity). rewrite E in HL. apply HL.
      * intros [a [e ts]] Hin. apply in_app_iff in Hin. destruct Hin as [Hin|[Hin|[]]]; [|injection Hin as <- <- <-; exact Cx]. unfold m' in Hin. rewrite map_map in Hin. apply in_map_iff in Hin. destruct Hin as ([[a' w'] [e' ts']] & E' & Hin). cbn in E'. injection E' as -> -> ->. exact (proj1 (M2 _ _ _ _ Hin)).
      * intros a w Hin. unfold m' in Hin. apply in_map_iff in Hin. destruct Hin as ([[a' w'] et] & E' & Hin). cbn in E'. injection E' as _ <-. apply (HW a' w'). rewrite <- M1. apply in_map_iff. exists (a', w', et). auto.
    + pose proof (parses_list (map (fun b : A * string * (expr * list tok) => snd b) m ++ [(ex, tsx)])) as PL. rewrite !map_app in PL. cbn [map fst snd] in PL. rewrite !map_map in PL. unfold m'. rewrite map_app, !map_map. cbn [map fst snd]. apply PL; [destruct m; discriminate|].
      intros e ts Hin. apply in_app_iff in Hin. destruct Hin as [Hin|[Hin|[]]]; [|injection Hin as <- <-; exact Px]. apply in_map_iff in Hin. destruct Hin as ([[a' w'] et] & E' & Hin). cbn in E'. subst et. exact (proj1 (proj2 (M2 _ _ _ _ Hin))).
  - rewrite <- M1. rewrite map_map. apply Forall2_app; [|constructor; [exact Rx|constructor]]. clear - M2. induction m as [|[[a w] [e ts]] m IH]; [constructor|]. constructor; [exact (proj2 (proj2 (M2 a w e ts (or_introl eq_refl))))|]. apply IH. intros; eapply M2; right; eassumption.
Qed.
Lemma blank_text s e : textOf s e -> textOf (" " ++ s) e.
Proof. intros (ts & C & P). exists ts. split; [|exact P]. change ts with ([] ++ ts). apply (lexed_closes_app (blanks 1)); [apply lexed_blanks|exact C]. Qed.
Lemma num_text (shows : Q -> string -> Prop) s m k x : denotes s m k -> (forall a, decimal a = Some (m, k) -> shows x a) -> exists a, textOf s (ENum a) /\ shows x a.
Proof. intros (w & R & D) H. exists w. split; [|auto]. exists [TNum w]. split; [apply closes_num; exact R|apply parses_num]. Qed.
Lemma fmtE_text p w U x q : (0 < p)%nat -> 0 < U -> (inject_Z x / inject_Z U == q)%Q -> exists a, textOf (fmtE w p U x) (ENum a) /\ toDigits (Z.of_nat p) q a.
Proof.
  intros Hp HU HQ. destruct (fmtE_denotes w p U x Hp HU) as (m & k & D & W & _). apply (num_text (toDigits (Z.of_nat p)) _ m k q D). intros a E. apply (toDigits_eq _ _ _ _ HQ). exact (near_digits (Z.of_nat p) U x m k a (Nat2Z.is_nonneg p) HU W E).
Qed.
Lemma fmtF_text p w U x : (0 < p)%nat -> 0 < U -> exists a, textOf (fmtF w p U x) (ENum a) /\ toDecimals (Z.of_nat p) (inject_Z x / inject_Z U) a.
Proof.
  intros Hp HU. destruct (fmtF_denotes w p U x HU Hp) as (m & D & W). apply (num_text (toDecimals (Z.of_nat p)) _ m _ _ D). intros a E. exact (within_decimals (Z.of_nat p) U x m _ a (Nat2Z.is_nonneg p) HU W E).
Qed.
(** three numbers in brackets *)
Lemma three_text (shows : Q -> string -> Prop) s1 s2 s3 x y z : (exists a, textOf s1 (ENum a) /\ shows x a) -> (exists a, textOf s2 (ENum a) /\ shows y a) -> (exists a, textOf s3 (ENum a) /\ shows z a) ->
  exists e, textOf ("[ " ++ s1 ++ ", " ++ s2 ++ ", " ++ s3 ++ "]") e /\ threeNumbers shows x y z e.
Proof.
  intros (a & A1 & A2) (b & B1 & B2) (c & C1 & C2).
  destruct (list_text (fun p : string * expr => (" " ++ fst p)%string) (fun p e => e = snd p) [((s1, ENum a), ""); ((s2, ENum b), "")] (s3, ENum c)) as (es & T & F).
  - intros p [<-|[<-|[<-|[]]]]; (eexists; split; [apply blank_text; eassumption|reflexivity]).
  - intros p w [E|[E|[]]]; injection E as _ <-; apply gap_nil.
  - cbn [map fst snd app cat] in *. inversion F as [|? ? ? ? E1 F1]; subst. inversion F1 as [|? ? ? ? E2 F2]; subst. inversion F2 as [|? ? ? ? E3 F3]; subst. inversion F3; subst.
    exists (EList [ENum a; ENum b; ENum c]). split; [|exists a, b, c; auto]. cbn [String.append] in *. repeat (rewrite sapp_assoc in T; cbn [String.append] in T). exact T.
Qed.

(** ** Names *)
Lemma letter_starts c d : isLetter c = true -> scanChar Idle d c = Some ([], InName (String c ""), d).
Proof. intros H. destruct c as [[] [] [] [] [] [] [] []]; try discriminate H; reflexivity. Qed.
Lemma name_text s : isName s = true -> textOf s (EName s).
Proof.
  intros H. exists [TName s]. split; [|apply parses_name]. apply closes_name. intros d. destruct s as [|c s]; [discriminate|]. unfold isName in H. cbn [list_ascii_of_string] in H. apply andb_true_iff in H. destruct H as [Hc Hs].
  rewrite scan_cons, (letter_starts c d Hc). cbn [Base.obind]. rewrite prepend_nil.
  assert (G : forall w, scan (InName w) d s = Some ([], InName (w ++ s), d)).
  { clear Hc. induction s as [|e s IH]; intros w; [rewrite sapp_nil; reflexivity|]. cbn [list_ascii_of_string forallb] in Hs. apply andb_true_iff in Hs. destruct Hs as [He Hs]. rewrite scan_cons. cbn [scanChar]. rewrite He. cbn [Base.obind]. rewrite prepend_nil, IH by exact Hs. unfold snoc. rewrite sapp_assoc. reflexivity. }
  rewrite G. reflexivity.
Qed.

(** ** The loop *)
Lemma loop_items U L l x : forall row, exists g, map fst g = map fst l /\ (forall a w, In (a, w) g -> gap w) /\
  atkLoop U L row (l ++ [x]) = ((cat (map (fun aw => fst aw ++ "," ++ snd aw) g) ++ fst x ++ "]" ++ NL ++ NL)%string, (items (atkPoint U L) (NL ++ blanks 15) (map snd l) ++ atkPoint U L (snd x) ++ "]" ++ NL ++ NL)%string).
Proof.
  induction l as [|[t c] l IH]; intros row.
  - exists []. split; [reflexivity|]. split; [intros ? ? []|]. destruct x as [t c]. reflexivity.
  - assert (E : atkLoop U L row (((t, c) :: l) ++ [x]) = let (e, y) := atkLoop U L (if Z.eqb (row + 1) 6 then 0 else row + 1) (l ++ [x]) in
      ((t ++ (if Z.eqb (row + 1) 6 then "," ++ NL ++ blanks 12 else ", ") ++ e)%string, (atkPoint U L c ++ "," ++ NL ++ blanks 15 ++ y)%string)) by (destruct l; reflexivity).
    rewrite E. destruct (IH (if Z.eqb (row + 1) 6 then 0 else row + 1)) as (g & G1 & G2 & ->). exists ((t, if Z.eqb (row + 1) 6 then (NL ++ blanks 12)%string else " ") :: g). split; [cbn; rewrite G1; reflexivity|]. split.
    + intros a w [Hin|Hin]; [|exact (G2 a w Hin)]. injection Hin as _ <-. destruct (Z.eqb _ _); [exact (gap_break 12)|exact (gap_blanks 1)].
    + unfold items. cbn [map cat fst snd]. destruct (Z.eqb (row + 1) 6); cbn [String.append]; rewrite !sapp_assoc; cbn [String.append]; rewrite ?sapp_assoc; reflexivity.
Qed.
(** ** The atoms *)
Lemma dict_name m t e : dictGet m t = Some e <-> hasName m t e.
Proof.
  unfold dictGet, hasName. induction m as [|[k v] m IH]; cbn [find option_map fst].
  - split; [discriminate|]. intros (b & a & E & _). destruct b; discriminate.
  - destruct (String.eqb_spec k t) as [->|N]; cbn [option_map snd].
    + split; [intros E; injection E as ->; exists [], m; split; [reflexivity|intros []]|]. intros (b & a & E & H). destruct b as [|kv b]; [injection E as -> _; reflexivity|]. injection E as <- _. exfalso. apply H. left. reflexivity.
    + rewrite IH. split; intros (b & a & E & H).
      * exists ((k, v) :: b), a. split; [rewrite E; reflexivity|]. intros [Hk|Hk]; [exact (N Hk)|exact (H Hk)].
      * destruct b as [|kv b]; [injection E as E1 _ _; contradiction|]. injection E as <- E. exists b, a. split; [exact E|]. intros Hk. apply H. right. exact Hk.
Qed.
Lemma dict_known m t : existsb (fun kv => String.eqb (fst kv) t) m = match dictGet m t with Some _ => true | None => false end.
Proof. unfold dictGet. induction m as [|[k v] m IH]; [reflexivity|]. cbn [existsb find fst]. destruct (String.eqb k t); [reflexivity|exact IH]. Qed.
Lemma atoms_translated m types coords : Forall2 (fun tc ec => hasName m (fst tc) (fst ec) /\ snd ec = snd tc) (translated m types coords) (atkAtoms m types coords).
Proof.
  unfold translated, atkAtoms. induction (combine types coords) as [|[t c] l IH]; [constructor|]. cbn [filter flat_map fst snd]. rewrite dict_known. destruct (dictGet m t) as [e|] eqn:E; [|exact IH]. cbn [app]. constructor; [|exact IH]. cbn [fst snd]. split; [apply dict_name; exact E|reflexivity].
Qed.
