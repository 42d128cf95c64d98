(** C78: what an xyz trajectory file says about the simulation. *)
From Verif Require Import PBase MXyz SXyz PPrint.
From Verif Require Import TTrajectory.
Open Scope string_scope.
Open Scope list_scope.
Open Scope Z_scope.

(** the format %15.10e never needs padding *)
Lemma not_blank c n a s : String c s = (blanks n ++ a)%string -> c <> " "%char -> n = O.
Proof. intros H Hc. destruct n; [reflexivity|]. cbn in H. injection H as H _. contradiction. Qed.
Lemma digit_not_blank n : 0 <= n -> ascii_of_nat (48 + Z.to_nat (n mod 10)) <> " "%char.
Proof. intros H. assert (R := Z.mod_pos_bound n 10 ltac:(lia)). destruct (digitChar (n mod 10) R) as (D & _). intros E. rewrite E in D. discriminate. Qed.
Lemma fmtXyz_front U x : 0 < U -> exists c s, fmtXyz U x = String c s /\ c <> " "%char.
Proof.
  intros HU. unfold fmtXyz, fmtE. assert (G : forall w c s, (w <= String.length (String c s))%nat -> padLeft w (String c s) = String c s).
  { intros w c s H. unfold padLeft. replace (w - String.length (String c s))%nat with O by lia. reflexivity. }
  destruct (Z.eqb_spec x 0) as [->|Hx]; [vm_compute; do 2 eexists; split; [reflexivity|discriminate]|].
  destruct (mantissa 10 (Z.abs x) U) as [m e] eqn:EM. destruct (mantissa_spec 10 (Z.abs x) U m e ltac:(lia) HU EM) as (M1 & _). assert (Hm : 0 <= m / 10 ^ Z.of_nat 10) by (apply Z.div_pos; [|apply Z.pow_pos_nonneg; lia]; assert (0 < 10 ^ Z.of_nat 10) by (apply Z.pow_pos_nonneg; lia); lia).
  set (a := m / 10 ^ Z.of_nat 10) in *. set (b := m mod 10 ^ Z.of_nat 10). assert (LE : (2 <= String.length (expText e))%nat).
  { unfold expText. destruct (Z.ltb_spec (Z.abs e) 100) as [L|L]; rewrite slength_app; [rewrite digs_length; destruct (e <? 0); cbn; lia|]. assert (N := showZ_ne (Z.abs e)). destruct (showZ (Z.abs e)); [contradiction|]. destruct (e <? 0); cbn; lia. }
  assert (LB : (15 <= String.length (digs 1 a ++ "." ++ digs 10 b ++ "e" ++ expText e))%nat) by (rewrite !slength_app, !digs_length; cbn [String.length]; lia).
  change (digs 1 a) with (String (ascii_of_nat (48 + Z.to_nat (a mod 10))) "") in *. destruct (x <? 0).
  - change ("-" ++ ?s)%string with (String "-" s). rewrite G by (cbn [String.append String.length] in *; lia). do 2 eexists. split; [reflexivity|discriminate].
  - change ("" ++ ?s)%string with s. cbn [String.append] in *. rewrite G by exact LB. do 2 eexists. split; [reflexivity|]. apply digit_not_blank. exact Hm.
Qed.
Lemma fmtXyz_word U x : 0 < U -> okWord (fmtXyz U x) /\ toDigits 10 (inUnits U x) (fmtXyz U x).
Proof.
  intros HU. destruct (fmtE_cell 15 10 U x HU ltac:(lia)) as (a & (W & n & E) & D). destruct (fmtXyz_front U x HU) as (c & s & E2 & Hc). unfold fmtXyz in *. rewrite E2 in E. assert (n = O) by exact (not_blank _ _ _ _ E Hc). subst n. cbn [blanks String.append] in E. rewrite E2, E. split; [exact W|exact D].
Qed.
Lemma position_ok U c : 0 < U -> okCoord (fmtXyz U) c /\ saysPosition U c (coordText (fmtXyz U) c).
Proof. intros HU. destruct c as [[x y] z]. unfold okCoord, saysPosition, coordText. destruct (fmtXyz_word U x HU), (fmtXyz_word U y HU), (fmtXyz_word U z HU). tauto. Qed.

(** After the final flush the file has exactly the frames that were appended, in this order, with times and positions to eleven digits.
    As in C28_xyz, if the buffered types are copies (live = false) or never change. *)
Theorem C78_frames U size maxSize maxTime header live now (cs : list (@tcall (Z * Z * list string * list (Z * Z * Z)))) : 0 < U ->
  (forall t s y c, In (t, s, y, c) (appended cs) -> length y = length c /\ (forall n, In n y -> okWord n) /\ (live = true -> y = now)) ->
  exists st last frames, doCalls (xtStore live) size (xtFlush (fmtXyz U) (fmtXyz U)) maxSize maxTime (cs ++ [TFlush]) (xtNew header now) = ((st, last), Ok tt) /\
    xyzIn header (xt_file st) = Some frames /\ Forall2 (saysFrame U) (appended cs) frames.
Proof.
  intros HU H. destruct (C28_xyz (fmtXyz U) (fmtXyz U) size maxSize maxTime header live now cs) as (st & last & E & R).
  { intros t s y c Hd. destruct (H t s y c Hd) as (H1 & H2 & H3). split; [apply (fmtXyz_word U t HU)|]. split; [exact H1|]. split; [exact H2|]. split; [intros p _; apply position_ok; exact HU|exact H3]. }
  exists st, last. eexists. split; [exact E|]. split; [exact R|]. clear E R st last. revert H. generalize (appended cs). intros l H. induction l as [|[[[t s] y] c] l IH]; [constructor|]. cbn [map]. constructor; [|apply IH; intros t' s' y' c' Hd; apply (H t' s' y' c'); right; exact Hd].
  destruct (H t s y c (or_introl eq_refl)) as (HL & _). split; [apply (fmtXyz_word U t HU)|]. split; [reflexivity|]. clear H IH. revert y HL. induction c as [|p c IHc]; intros [|n y] HL; try discriminate; [split; [reflexivity|constructor]|].
  injection HL as HL. destruct (IHc y HL) as (I1 & I2). cbn [map combine fst snd]. split; [rewrite I1; reflexivity|]. constructor; [apply position_ok; exact HU|exact I2].
Qed.
Lemma vector_line U label v rest : 0 < U -> okWord label -> exists l, (label ++ " " ++ xyzVector U v ++ rest)%string = (l ++ NL ++ rest)%string /\ without "010" l /\ saysVector U label v l.
Proof.
  intros HU HL. destruct v as [[x y] z]. exists (label ++ " " ++ fmtXyz U x ++ " " ++ fmtXyz U y ++ " " ++ fmtXyz U z)%string. cbn [xyzVector]. split; [rewrite !sapp_assoc; reflexivity|].
  assert (C : forall w, okWord w -> oneCell w w) by (intros w Hw; split; [exact Hw|exists O; reflexivity]). destruct (fmtXyz_word U x HU) as (X1 & X2). destruct (fmtXyz_word U y HU) as (Y1 & Y2). destruct (fmtXyz_word U z HU) as (Z1 & Z2).
  destruct (four_cells _ _ _ _ _ _ _ _ (C _ HL) (C _ X1) (C _ Y1) (C _ Z1)) as (W & E). split; [exact W|]. do 3 eexists. split; [exact E|]. unfold saysPosition. auto.
Qed.
(** The header says the cell vectors to eleven digits, the repetitions and the periodicity. *)
Theorem C78_header U a b c reps periodic : 0 < U -> saysHeader U a b c reps periodic (xyzHeader U a b c reps periodic).
Proof.
  intros HU. destruct reps as [[na nb] nc]. destruct periodic as [[pa pb] pc]. unfold xyzHeader, saysHeader. 
  assert (OA : okWord "a:") by (repeat split; discriminate). assert (OB : okWord "b:") by (repeat split; discriminate). assert (OC : okWord "c:") by (repeat split; discriminate).
  assert (C : forall w, okWord w -> oneCell w w) by (intros w Hw; split; [exact Hw|exists O; reflexivity]). assert (OP : forall p, okWord (boolText p)) by (intros []; repeat split; discriminate).
  assert (OR : okWord "REPETITIONS") by (repeat split; discriminate). assert (OQ : okWord "PERIODICITY") by (repeat split; discriminate).
  assert (SZ : forall z, okWord (showZ z)) by (intros z; apply (@showZ_word)).
  destruct (four_cells _ _ _ _ _ _ _ _ (C _ OR) (C _ (SZ na)) (C _ (SZ nb)) (C _ (SZ nc))) as (WR & ER). destruct (four_cells _ _ _ _ _ _ _ _ (C _ OQ) (C _ (OP pa)) (C _ (OP pb)) (C _ (OP pc))) as (WP & EP). cbv zeta in WR, ER, WP, EP.
  set (lr := ("REPETITIONS" ++ _)%string) in *. set (lp := ("PERIODICITY" ++ _)%string) in *.
  set (r1 := (NL ++ (lr ++ NL ++ NL ++ (lp ++ NL ++ NL ++ "")))%string). destruct (vector_line U "c:" c r1 HU OC) as (lc & EC & WC & SC). destruct (vector_line U "b:" b (lc ++ NL ++ r1) HU OB) as (lb & EB & WB & SB). destruct (vector_line U "a:" a (lb ++ NL ++ lc ++ NL ++ r1) HU OA) as (la & EA & WA & SA).
  exists "KMCLib XYZ FORMAT VERSION 2013.10.15", "CELL VECTORS", la, lb, lc, lr, lp. split.
  - replace (_ ++ _)%string with ("KMCLib XYZ FORMAT VERSION 2013.10.15" ++ NL ++ "" ++ NL ++ "CELL VECTORS" ++ NL ++ "a:" ++ " " ++ xyzVector U a ++ "b:" ++ " " ++ xyzVector U b ++ "c:" ++ " " ++ xyzVector U c ++ r1)%string.
    + rewrite EC, EB, EA. rewrite (lines_cons "KMCLib XYZ FORMAT VERSION 2013.10.15") by (repeat split; discriminate). rewrite (lines_cons "") by exact I. rewrite (lines_cons "CELL VECTORS") by (repeat split; discriminate). rewrite (lines_cons la), (lines_cons lb), (lines_cons lc) by assumption.
      unfold r1. change (NL ++ (lr ++ ?x))%string with ("" ++ NL ++ (lr ++ x))%string. rewrite (lines_cons "") by exact I. rewrite (lines_cons lr) by exact WR. change (NL ++ (lp ++ ?x))%string with ("" ++ NL ++ (lp ++ x))%string. rewrite (lines_cons "") by exact I. rewrite (lines_cons lp) by exact WP. reflexivity.
    + unfold r1, lr, lp. rewrite !sapp_assoc. reflexivity.
  - split; [exact SA|]. split; [exact SB|]. split; [exact SC|]. split; [do 3 eexists; split; [exact ER|]; rewrite !readZ_showZ; auto|exact EP].
Qed.
(** ** Example *)
Definition xyzCalls : list (@tcall (Z * Z * list string * list (Z * Z * Z))) := [TAppend (250, 0, ["A"; "B"], [(0, 0, 0); (1000, -500, 333)]) 0 0; TAppend (1333, 1, ["B"; "B"], [(0, 0, 0); (1000, -500, 333)]) 0 0].
Example C78_example : (forall t s y c, In (t, s, y, c) (appended xyzCalls) -> length y = length c /\ (forall n, In n y -> okWord n)) /\
  exists st last, doCalls (xtStore false) (fun _ => 0) (xtFlush (fmtXyz 1000) (fmtXyz 1000)) 100 100 (xyzCalls ++ [TFlush]) (xtNew "" []) = ((st, last), Ok tt) /\
  xyzIn "" (xt_file st) = Some [("2.5000000000e-01", 0, [("A", ("0.0000000000e+00", "0.0000000000e+00", "0.0000000000e+00")); ("B", ("1.0000000000e+00", "-5.0000000000e-01", "3.3300000000e-01"))]);
    ("1.3330000000e+00", 1, [("B", ("0.0000000000e+00", "0.0000000000e+00", "0.0000000000e+00")); ("B", ("1.0000000000e+00", "-5.0000000000e-01", "3.3300000000e-01"))])].
Proof.
  split.
  - intros t s y c [E|[E|[]]]; injection E as <- <- <- <-; (split; [reflexivity|]); intros n Hn; cbn in Hn; intuition (subst; repeat split; discriminate).
  - do 2 eexists. split; [vm_compute; reflexivity|]. vm_compute. reflexivity.
Qed.
Example C78_header_example : cells (nth 3 (lines (xyzHeader 1000 (1000, 0, 0) (0, 1000, 0) (0, 0, 1500) (10, 10, 1) (true, true, false))) "") = ["a:"; "1.0000000000e+00"; "0.0000000000e+00"; "0.0000000000e+00"] /\
  map cells (skipn 7 (lines (xyzHeader 1000 (1000, 0, 0) (0, 1000, 0) (0, 0, 1500) (10, 10, 1) (true, true, false)))) = [["REPETITIONS"; "10"; "10"; "1"]; []; ["PERIODICITY"; "True"; "True"; "False"]; []].
Proof. split; vm_compute; reflexivity. Qed.
Print Assumptions C78_frames. Print Assumptions C78_header.
