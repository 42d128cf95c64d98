(** Lemmas on printed tables. *)
From Coq Require Export Sorted.
From Verif Require Export MPrint SPrint PFormat PAnalysis.
Open Scope string_scope.
Open Scope list_scope.
Open Scope Z_scope.

(** ** Lines and cells *)
Lemma parts_word c a : forall w, without c a -> parts c w a = [(w ++ a)%string].
Proof.
  induction a as [|d a IH]; intros w H; [cbn; rewrite sapp_nil; reflexivity|]. destruct H as [H1 H2]. cbn [parts]. apply Ascii.eqb_neq in H1. rewrite H1, IH by exact H2. rewrite sapp_assoc. reflexivity.
Qed.
Lemma parts_at c a s : forall w, without c a -> parts c w (a ++ String c s) = (w ++ a)%string :: parts c "" s.
Proof.
  induction a as [|d a IH]; intros w H; [cbn; rewrite sapp_nil, Ascii.eqb_refl; reflexivity|]. destruct H as [H1 H2]. cbn [parts String.append]. apply Ascii.eqb_neq in H1. rewrite H1, IH by exact H2. rewrite sapp_assoc. reflexivity.
Qed.
Lemma parts_nonempty c s : forall w, parts c w s <> [].
Proof. induction s as [|d s IH]; intros w; [discriminate|]. cbn. destruct (Ascii.eqb c d); [discriminate|apply IH]. Qed.
Lemma lines_nil : lines "" = []. Proof. reflexivity. Qed.
Lemma lines_cons a s : without "010" a -> lines (a ++ NL ++ s) = a :: lines s.
Proof.
  intros H. unfold lines. change (NL ++ s)%string with (String "010" s). rewrite parts_at by exact H. cbn [String.append]. assert (N := parts_nonempty "010"%char s ""). destruct (parts "010" "" s); [contradiction|reflexivity].
Qed.
Lemma cells_blank s : cells (String " " s) = cells s. Proof. reflexivity. Qed.
Lemma cells_blanks n s : cells (blanks n ++ s) = cells s. Proof. induction n as [|n IH]; [reflexivity|exact IH]. Qed.
Lemma cells_word a : okWord a -> cells a = [a].
Proof. intros (H1 & H2 & _). unfold cells. rewrite parts_word by exact H2. cbn [String.append filter]. apply String.eqb_neq in H1. rewrite H1. reflexivity. Qed.
Lemma cells_cons a s : okWord a -> cells (a ++ String " " s) = a :: cells s.
Proof. intros (H1 & H2 & _). unfold cells. rewrite parts_at by exact H2. cbn [String.append filter]. apply String.eqb_neq in H1. rewrite H1. reflexivity. Qed.
Lemma blanks_line n : without "010" (blanks n). Proof. induction n as [|n IH]; [exact I|]. cbn. split; [discriminate|exact IH]. Qed.

(** a text with one word, possibly after blanks *)
Definition oneCell (s a : string) : Prop := okWord a /\ exists n, s = (blanks n ++ a)%string.
Lemma oneCell_pad w a : okWord a -> oneCell (padLeft w a) a. Proof. intros H. split; [exact H|]. eexists. reflexivity. Qed.
Lemma oneCell_cons s a r : oneCell s a -> cells (s ++ String " " r) = a :: cells r.
Proof. intros (H & n & ->). rewrite sapp_assoc, cells_blanks. apply cells_cons. exact H. Qed.
Lemma oneCell_last s a : oneCell s a -> cells s = [a].
Proof. intros (H & n & ->). rewrite cells_blanks. apply cells_word. exact H. Qed.
Lemma oneCell_line s a : oneCell s a -> without "010" s.
Proof. intros ((_ & _ & H) & n & ->). apply without_app. split; [apply blanks_line|exact H]. Qed.

(** ** The words of numbers *)
Lemma numChar_not w c : isNumChar w c = true -> " "%char <> c /\ "010"%char <> c.
Proof.
  intros H. split; intros <-; unfold isNumChar in H; cbn in H; discriminate.
Qed.
Lemma scan_tokens m d c s ts m1 d1 us m2 d2 : scanChar m d c = Some (ts, m1, d1) -> scan m d (String c s) = Some (us, m2, d2) -> exists vs, us = ts ++ vs /\ scan m1 d1 s = Some (vs, m2, d2).
Proof.
  intros H. cbn [scan]. rewrite H. cbn [obind]. destruct (scan m1 d1 s) as [[[vs m3] d3]|]; [|discriminate]. cbn [obind]. intros E. injection E as <- <- <-. exists vs. split; reflexivity.
Qed.
Lemma num_run s : forall w0 d w d1, scan (InNum w0) d s = Some ([], InNum w, d1) -> w = (w0 ++ s)%string /\ without " " s /\ without "010" s.
Proof.
  induction s as [|c s IH]; intros w0 d w d1 H; [cbn in H; injection H as <- <-; rewrite sapp_nil; cbn; auto|].
  assert (S : exists r, scanChar (InNum w0) d c = Some r) by (cbn [scan] in H; destruct (scanChar (InNum w0) d c) as [r|]; [exists r; reflexivity|discriminate]). destruct S as [[[ts m1] d2] S]. destruct (scan_tokens _ _ _ _ _ _ _ _ _ _ S H) as (vs & E & H2).
  symmetry in E. apply app_eq_nil in E. destruct E as [-> ->]. cbn [scanChar] in S. destruct (isNumChar w0 c) eqn:EN.
  - injection S as <- <-. destruct (IH _ _ _ _ H2) as (-> & W1 & W2). destruct (numChar_not _ _ EN). unfold snoc. rewrite sapp_assoc. cbn. auto.
  - destruct (isLetter c); [discriminate|]. unfold after in S. destruct (stepIdle d c) as [[[us m3] d3]|]; discriminate.
Qed.
Lemma name_run s : forall w0 d w d1, scan (InName w0) d s <> Some ([], InNum w, d1).
Proof.
  induction s as [|c s IH]; intros w0 d w d1 H; [discriminate|].
  assert (S : exists r, scanChar (InName w0) d c = Some r) by (cbn [scan] in H; destruct (scanChar (InName w0) d c) as [r|]; [exists r; reflexivity|discriminate]). destruct S as [[[ts m1] d2] S]. destruct (scan_tokens _ _ _ _ _ _ _ _ _ _ S H) as (vs & E & H2).
  symmetry in E. apply app_eq_nil in E. destruct E as [-> ->]. cbn [scanChar] in S. destruct (isLetter c || isDigit c).
  - injection S as <- <-. exact (IH _ _ _ _ H2).
  - unfold after in S. destruct (stepIdle d c) as [[[us m3] d3]|]; discriminate.
Qed.
Lemma text_run s : forall q w0 d w d1, scan (InText q w0) d s <> Some ([], InNum w, d1).
Proof.
  induction s as [|c s IH]; intros q w0 d w d1 H; [discriminate|].
  assert (S : exists r, scanChar (InText q w0) d c = Some r) by (cbn [scan] in H; destruct (scanChar (InText q w0) d c) as [r|]; [exists r; reflexivity|discriminate]). destruct S as [[[ts m1] d2] S]. destruct (scan_tokens _ _ _ _ _ _ _ _ _ _ S H) as (vs & E & H2).
  symmetry in E. apply app_eq_nil in E. destruct E as [-> ->]. cbn [scanChar] in S. destruct (Ascii.eqb c q); [discriminate|]. destruct (Ascii.eqb c "\" || _ || _); [discriminate|]. injection S as <- <-. exact (IH _ _ _ _ _ H2).
Qed.
Lemma comment_run s : forall d w d1, d = O -> scan Comment d s <> Some ([], InNum w, d1).
Proof.
  induction s as [|c s IH]; intros d w d1 -> H; [discriminate|]. cbn [scan scanChar] in H. destruct (Ascii.eqb c "010") eqn:EC.
  - apply Ascii.eqb_eq in EC. subst c. cbn in H. destruct (scan Start 0 s) as [[[? ?] ?]|]; discriminate.
  - cbn [obind] in H. destruct (scan Comment 0 s) as [[[us m2] d2]|] eqn:E2; [|discriminate]. cbn in H. injection H as -> -> ->. exact (IH _ _ _ eq_refl E2).
Qed.
Lemma idle_run s : forall w d1, scan Idle 0 s = Some ([], InNum w, d1) -> oneCell s w.
Proof.
  induction s as [|c s IH]; intros w d1 H; [discriminate|].
  assert (S : exists r, scanChar Idle 0 c = Some r) by (cbn [scan] in H; destruct (scanChar Idle 0 c) as [r|]; [exists r; reflexivity|discriminate]). destruct S as [[[ts m1] d2] S]. destruct (scan_tokens _ _ _ _ _ _ _ _ _ _ S H) as (vs & E & H2).
  symmetry in E. apply app_eq_nil in E. destruct E as [-> ->]. cbn [scanChar] in S. unfold stepIdle in S.
  destruct (Ascii.eqb c " ") eqn:E1; [|destruct (Ascii.eqb c "010") eqn:E2; [discriminate|]; destruct (Ascii.eqb c "#"); [|destruct (Ascii.eqb c "'" || _); [|destruct (isDigit c || _) eqn:E3; [|destruct (isLetter c); [|destruct (Ascii.eqb c "[" || _); [discriminate|]; destruct (Ascii.eqb c "]" || _); [discriminate|]; destruct (Ascii.eqb c "," || _ || _ || _); discriminate]]]]].
  - injection S as <- <-. destruct (IH _ _ H2) as (HW & n & ->). apply Ascii.eqb_eq in E1. subst c. split; [exact HW|]. exists (Datatypes.S n). reflexivity.
  - injection S as <- <-. destruct (comment_run _ _ _ _ eq_refl H2).
  - injection S as <- <-. destruct (text_run _ _ _ _ _ _ H2).
  - injection S as <- <-. destruct (num_run _ _ _ _ _ H2) as (-> & W1 & W2). split.
    + split; [discriminate|]. apply Ascii.eqb_neq in E1, E2. cbn. auto.
    + exists O. reflexivity.
  - injection S as <- <-. destruct (name_run _ _ _ _ _ H2).
Qed.
Lemma denotes_cell s m k : denotes s m k -> exists a, oneCell s a /\ decimal a = Some (m, k).
Proof. intros (w & H & D). exists w. split; [exact (idle_run _ _ _ (H O))|exact D]. Qed.

(** ** Numbers *)
Lemma toDecimals_eq p x y a : (x == y)%Q -> toDecimals p x a -> toDecimals p y a.
Proof. intros E (q & R & H). exists q. split; [exact R|]. rewrite <- E. exact H. Qed.
Lemma toDigits_eq p x y a : (x == y)%Q -> toDigits p x a -> toDigits p y a.
Proof. intros E (q & R & H). exists q. split; [exact R|]. rewrite <- E. exact H. Qed.
Lemma inject_pos z : 0 < z -> (0 < inject_Z z)%Q. Proof. intros H. change (0 < inject_Z z)%Q with (inject_Z 0 < inject_Z z)%Q. rewrite <- Zlt_Qlt. exact H. Qed.
Lemma inject_neq z : z <> 0 -> ~ (inject_Z z == 0)%Q. Proof. intros H E. change 0%Q with (inject_Z 0) in E. apply (proj1 (inject_Z_injective z 0)) in E. exact (H E). Qed.
Lemma inject_abs z : Qabs (inject_Z z) = inject_Z (Z.abs z). Proof. reflexivity. Qed.
(** the difference of two quotients *)
Lemma quotients a b c d : 0 < b -> 0 < d -> (Qabs (inject_Z a / inject_Z b - inject_Z c / inject_Z d) == inject_Z (Z.abs (a * d - c * b)) / inject_Z (b * d))%Q.
Proof.
  intros Hb Hd. assert (B := inject_neq b ltac:(lia)). assert (D := inject_neq d ltac:(lia)). assert (E : (inject_Z a / inject_Z b - inject_Z c / inject_Z d == inject_Z (a * d - c * b) / inject_Z (b * d))%Q).
  { unfold Z.sub. rewrite inject_Z_plus, inject_Z_opp, !inject_Z_mult. field. auto. }
  rewrite E. unfold Qdiv. rewrite Qabs_Qmult, inject_abs. rewrite (Qabs_pos (/ inject_Z (b * d))); [reflexivity|]. apply Qinv_le_0_compat. apply Qlt_le_weak, inject_pos. nia.
Qed.
Lemma Qdiv_le a b c d : 0 < b -> 0 < d -> a * d <= c * b -> (inject_Z a / inject_Z b <= inject_Z c / inject_Z d)%Q.
Proof.
  intros Hb Hd H. apply Qle_shift_div_l; [apply inject_pos; exact Hd|]. assert (E : (inject_Z a / inject_Z b * inject_Z d == inject_Z (a * d) / inject_Z b)%Q) by (rewrite inject_Z_mult; field; apply inject_neq; lia).
  rewrite E. apply Qle_shift_div_r; [apply inject_pos; exact Hb|]. rewrite <- inject_Z_mult, <- Zle_Qle. exact H.
Qed.
Lemma within_decimals p U x m k a : 0 <= p -> 0 < U -> within p U x m k -> decimal a = Some (m, k) -> toDecimals p (inject_Z x / inject_Z U) a.
Proof.
  intros Hp HU W D. exists (inject_Z (m * tens k) / inject_Z (tens (- k)))%Q. split; [exists m, k; split; [exact D|reflexivity]|]. assert (T := tens_pos (- k)). assert (P : 0 < 10 ^ p) by (apply Z.pow_pos_nonneg; lia).
  rewrite quotients by (exact T || exact HU). change (1 / inject_Z (2 * 10 ^ p))%Q with (inject_Z 1 / inject_Z (2 * 10 ^ p))%Q. apply Qdiv_le; [nia|nia|]. unfold within in W. rewrite Z.mul_1_l, (Z.mul_comm _ (2 * 10 ^ p)), (Z.mul_comm (tens (- k)) U). exact W.
Qed.
Lemma near_digits p U x m k a : 0 <= p -> 0 < U -> nearTo p U x m k -> decimal a = Some (m, k) -> toDigits p (inject_Z x / inject_Z U) a.
Proof.
  intros Hp HU W D. exists (inject_Z (m * tens k) / inject_Z (tens (- k)))%Q. split; [exists m, k; split; [exact D|reflexivity]|]. assert (T := tens_pos (- k)). assert (P : 0 < 10 ^ p) by (apply Z.pow_pos_nonneg; lia).
  rewrite quotients by (exact T || exact HU).
  assert (E : (Qabs (inject_Z x / inject_Z U) / inject_Z (2 * 10 ^ p) == inject_Z (Z.abs x) / inject_Z (U * (2 * 10 ^ p)))%Q).
  { unfold Qdiv. rewrite Qabs_Qmult, inject_abs, (Qabs_pos (/ inject_Z U)) by (apply Qinv_le_0_compat, Qlt_le_weak, inject_pos; exact HU). rewrite (inject_Z_mult U). field. split; apply inject_neq; lia. }
  rewrite E. apply Qdiv_le; [nia|nia|]. unfold nearTo in W. set (A := Z.abs (m * tens k * U - x * tens (- k))) in *. replace (A * (U * (2 * 10 ^ p))) with (U * (2 * 10 ^ p * A)) by ring. replace (Z.abs x * (tens (- k) * U)) with (U * (Z.abs x * tens (- k))) by ring. apply Z.mul_le_mono_nonneg_l; lia.
Qed.
Lemma fmtF_cell w p U x : 0 < U -> (0 < p)%nat -> exists a, oneCell (fmtF w p U x) a /\ toDecimals (Z.of_nat p) (inject_Z x / inject_Z U) a.
Proof.
  intros HU Hp. destruct (fmtF_denotes w p U x HU Hp) as (m & D & W). destruct (denotes_cell _ _ _ D) as (a & C & E). exists a. split; [exact C|]. exact (within_decimals (Z.of_nat p) U x m _ a (Nat2Z.is_nonneg p) HU W E).
Qed.
Lemma fmtE_cell w p U x : 0 < U -> (0 < p)%nat -> exists a, oneCell (fmtE w p U x) a /\ toDigits (Z.of_nat p) (inject_Z x / inject_Z U) a.
Proof.
  intros HU Hp. destruct (fmtE_denotes w p U x Hp HU) as (m & k & D & W & _). destruct (denotes_cell _ _ _ D) as (a & C & E). exists a. split; [exact C|]. exact (near_digits (Z.of_nat p) U x m _ a (Nat2Z.is_nonneg p) HU W E).
Qed.
Lemma fmtI_cell w z : oneCell (fmtI w z) (showZ z). Proof. apply oneCell_pad. apply (@showZ_word). Qed.

(** ** Rows *)
Lemma four_cells s1 s2 s3 s4 a b c d : oneCell s1 a -> oneCell s2 b -> oneCell s3 c -> oneCell s4 d ->
  let l := (s1 ++ " " ++ s2 ++ " " ++ s3 ++ " " ++ s4)%string in without "010" l /\ cells l = [a; b; c; d].
Proof.
  intros H1 H2 H3 H4 l. split.
  - unfold l. repeat (apply without_app; split); try (eapply oneCell_line; eassumption); (split; [discriminate|exact I]).
  - change l with (s1 ++ String " " (s2 ++ String " " (s3 ++ String " " s4)))%string. rewrite (oneCell_cons _ a), (oneCell_cons _ b), (oneCell_cons _ c), (oneCell_last _ d) by assumption. reflexivity.
Qed.
Lemma three_cells s1 s2 s3 a b c : oneCell s1 a -> oneCell s2 b -> oneCell s3 c ->
  let l := (s1 ++ " " ++ s2 ++ " " ++ s3)%string in without "010" l /\ cells l = [a; b; c].
Proof.
  intros H1 H2 H3 l. split.
  - unfold l. repeat (apply without_app; split); try (eapply oneCell_line; eassumption); (split; [discriminate|exact I]).
  - change l with (s1 ++ String " " (s2 ++ String " " s3))%string. rewrite (oneCell_cons _ a), (oneCell_cons _ b), (oneCell_last _ c) by assumption. reflexivity.
Qed.
Lemma many_cells ss : forall aa, Forall2 oneCell ss aa -> let l := cat (map (fun c => " " ++ c)%string ss) in without "010" l /\ cells l = aa.
Proof.
  induction ss as [|s ss IH]; intros aa H; inversion H as [|? a ? aa' H1 H2]; subst; [split; [exact I|reflexivity]|]. destruct (IH _ H2) as (I1 & I2). cbn [map cat]. cbv zeta in *. split.
  - apply without_app. split; [|exact I1]. apply without_app. split; [split; [discriminate|exact I]|]. exact (oneCell_line _ _ H1).
  - set (f := fun c => (" " ++ c)%string) in *. change (cells (f s ++ cat (map f ss)) = a :: aa') with (cells (String " " (s ++ cat (map f ss))) = a :: aa'). rewrite cells_blank. destruct ss as [|s' ss].
    + inversion H2; subst. cbn [map cat]. rewrite sapp_nil. apply oneCell_last. exact H1.
    + set (L := cat (map f (s' :: ss))) in *. assert (E : exists r, L = String " " r) by (eexists; reflexivity). destruct E as (r & E). rewrite E in *. rewrite (oneCell_cons _ a) by exact H1. rewrite cells_blank in I2. rewrite I2. reflexivity.
Qed.

Lemma rate_eq n U t : 0 < U -> 0 < t -> (inject_Z (n * U) / inject_Z t == inject_Z n / inUnits U t)%Q.
Proof. intros HU Ht. unfold inUnits. rewrite inject_Z_mult. field. split; apply inject_neq; lia. Qed.
Lemma psLines_ok U interval : 0 < U -> 0 < interval -> forall data i ntot, 0 < i -> exists text, psLines U interval i ntot data = (text, Ok tt) /\ zlen (lines text) = zlen data /\
  forall j line, zget (lines text) j = Some line -> exists n a c d, zget data j = Some n /\ let m := ntot + zsum (firstn (Z.to_nat (j + 1)) data) in cells line = [a; showZ m; c; d] /\
    toDecimals 5 (inUnits U ((i + j) * interval)) a /\ toDecimals 5 (inject_Z n / inUnits U interval) c /\ toDecimals 5 (inject_Z m / inUnits U ((i + j) * interval)) d.
Proof.
  intros HU HI. induction data as [|n data IH]; intros i ntot Hi.
  - exists ""%string. split; [reflexivity|]. split; [reflexivity|]. intros j line H. rewrite lines_nil in H. apply zget_range in H. cbn in H. lia.
  - cbn [psLines]. destruct (Z.ltb_spec 0 i); [|lia]. destruct (Z.eqb_spec interval 0); [lia|]. destruct (IH (i + 1) (ntot + n) ltac:(lia)) as (r & -> & EL & HL). eexists. split; [reflexivity|].
    destruct (fmtF_cell 15 5 U (i * interval) HU ltac:(lia)) as (a & CA & DA). destruct (fmtF_cell 15 5 interval (n * U) HI ltac:(lia)) as (c & CC & DC). destruct (fmtF_cell 15 5 (i * interval) ((ntot + n) * U) ltac:(nia) ltac:(lia)) as (d & CD & DD).
    assert (CB := fmtI_cell 15 (ntot + n)). destruct (four_cells _ _ _ _ _ _ _ _ CA CB CC CD) as (W & EC). cbv zeta in W, EC. set (l := (fmtF 15 5 U (i * interval) ++ _)%string) in W, EC. 
    replace (fmtF 15 5 U (i * interval) ++ _)%string with (l ++ NL ++ r)%string by (unfold l; rewrite !sapp_assoc; reflexivity). rewrite lines_cons by exact W. split; [rewrite !zlen_cons, EL; reflexivity|].
    intros j line H0. pose proof (zget_range _ _ _ H0) as RJ. destruct (Z.eq_dec j 0) as [->|Hj].
    + rewrite zget_0 in H0. injection H0 as <-. exists n, a, c, d. split; [reflexivity|]. cbv zeta. change (firstn (Z.to_nat (0 + 1)) (n :: data)) with [n]. replace (ntot + zsum [n]) with (ntot + n) by (unfold zsum; cbn [fold_right]; lia). split; [exact EC|]. rewrite Z.add_0_r.
      split; [exact DA|]. split; [exact (toDecimals_eq _ _ _ _ (rate_eq n U interval HU HI) DC)|exact (toDecimals_eq _ _ _ _ (rate_eq _ U (i * interval) HU ltac:(nia)) DD)].
    + rewrite zget_cons in H0. destruct (Z.eqb_spec j 0); [lia|]. destruct (HL (j - 1) line H0) as (n' & a' & c' & d' & G & EC' & DA' & DC' & DD'). exists n', a', c', d'. split; [rewrite zget_cons; destruct (Z.eqb_spec j 0); [lia|exact G]|]. cbv zeta in *.
      replace (Z.to_nat (j + 1)) with (Datatypes.S (Z.to_nat (j - 1 + 1))) by lia. cbn [firstn]. rewrite zsum_cons, Z.add_assoc. replace (i + 1 + (j - 1)) with (i + j) in * by lia. auto.
Qed.
Lemma fmtQ_cell q : exists a, oneCell (fmtQ q) a /\ toDigits 3 q a.
Proof.
  destruct (fmtE_cell 15 3 (Zpos (Qden q)) (Qnum q) ltac:(lia) ltac:(lia)) as (a & C & D). exists a. split; [exact C|]. apply (toDigits_eq _ (inject_Z (Qnum q) / inject_Z (Zpos (Qden q)))); [|exact D]. symmetry. destruct q as [n d]. apply Qmake_Qdiv.
Qed.
Lemma fmtQ_cells l : exists aa, Forall2 oneCell (map fmtQ l) aa /\ Forall2 (toDigits 3) l aa.
Proof.
  induction l as [|q l (aa & C & D)]; [exists []; split; constructor|]. destruct (fmtQ_cell q) as (a & C1 & D1). exists (a :: aa). split; constructor; assumption.
Qed.
Lemma fields_ok n cs aa : zlen cs = n -> Forall2 oneCell cs aa -> exists l, fields n cs = Ok (l ++ NL)%string /\ without "010" l /\ cells l = aa.
Proof. intros <- H. unfold fields. rewrite Z.eqb_refl. destruct (many_cells cs aa H) as (W & E). eexists. split; [reflexivity|]. split; assumption. Qed.
Lemma middle_eq U interval i : 0 < U -> (inject_Z (2 * (i * interval) + interval) / inject_Z (2 * U) == inUnits U (i * interval) + inUnits U interval / 2)%Q.
Proof. intros HU. unfold inUnits. rewrite inject_Z_plus, !inject_Z_mult. change (inject_Z 2) with 2%Q. field. apply inject_neq. lia. Qed.
Lemma coLines_ok U interval n : 0 < U -> 0 < n -> forall data i, (forall d, In d data -> zlen d = n) -> exists text, coLines U interval n i data = (text, Ok tt) /\ zlen (lines text) = zlen data /\
  forall j line, zget (lines text) j = Some line -> exists d a aa, zget data j = Some d /\ cells line = a :: aa /\ toDigits 3 (inUnits U ((i + j) * interval) + inUnits U interval / 2) a /\ Forall2 (toDigits 3) (tl d) aa.
Proof.
  intros HU HN. induction data as [|d data IH]; intros i HD.
  - exists ""%string. split; [reflexivity|]. split; [reflexivity|]. intros j line H. rewrite lines_nil in H. apply zget_range in H. cbn in H. lia.
  - cbn [coLines]. destruct (fmtE_cell 15 3 (2 * U) (2 * (i * interval) + interval) ltac:(lia) ltac:(lia)) as (a & CA & DA). destruct (fmtQ_cells (tl d)) as (aa & CQ & DQ).
    destruct (fields_ok n (fmtE 15 3 (2 * U) (2 * (i * interval) + interval) :: map fmtQ (tl d)) (a :: aa)) as (l & -> & W & EC).
    { rewrite zlen_cons, zlen_map. assert (E := HD d (or_introl eq_refl)). destruct d; [cbn in E; lia|]. rewrite zlen_cons in E. exact E. }
    { constructor; assumption. }
    destruct (IH (i + 1) (fun x Hx => HD x (or_intror Hx))) as (r & -> & EL & HL). eexists. split; [reflexivity|]. rewrite sapp_assoc, lines_cons by exact W. split; [rewrite !zlen_cons, EL; reflexivity|].
    intros j line H0. pose proof (zget_range _ _ _ H0) as RJ. destruct (Z.eq_dec j 0) as [->|Hj].
    + rewrite zget_0 in H0. injection H0 as <-. exists d, a, aa. split; [reflexivity|]. split; [exact EC|]. rewrite Z.add_0_r. split; [|exact DQ]. exact (toDigits_eq _ _ _ _ (middle_eq U interval i HU) DA).
    + rewrite zget_cons in H0. destruct (Z.eqb_spec j 0); [lia|]. destruct (HL (j - 1) line H0) as (d' & a' & aa' & G & EC' & DA' & DQ'). exists d', a', aa'. rewrite zget_cons. destruct (Z.eqb_spec j 0); [lia|]. replace (i + 1 + (j - 1)) with (i + j) in * by lia. auto.
Qed.
Lemma centre_eq U bin i : 0 < U -> (inject_Z (2 * ((i + 1) * bin) - bin) / inject_Z (2 * U) == inUnits U (i * bin) + inUnits U bin / 2)%Q.
Proof. intros HU. rewrite <- (middle_eq U bin i HU). replace (2 * ((i + 1) * bin) - bin) with (2 * (i * bin) + bin) by ring. reflexivity. Qed.
Definition partCell (n v : Z) (c : string) : Prop := if n =? 0 then c = "nan"%string else toDecimals 15 (inject_Z v / inject_Z n) c.
Lemma tsLines_ok U bin n : 0 < U -> 0 <= n -> forall hist i, let text := tsLines U bin n i hist in zlen (lines text) = zlen hist /\
  forall j line, zget (lines text) j = Some line -> exists v a c, zget hist j = Some v /\ cells line = [a; showZ v; c] /\ toDecimals 5 (inUnits U ((i + j) * bin) + inUnits U bin / 2) a /\ partCell n v c.
Proof.
  intros HU HN. induction hist as [|v hist IH]; intros i text.
  - split; [reflexivity|]. intros j line H. unfold text in H. cbn [tsLines] in H. rewrite lines_nil in H. apply zget_range in H. cbn in H. lia.
  - unfold text. cbn [tsLines]. cbv zeta. destruct (fmtF_cell 10 5 (2 * U) (2 * ((i + 1) * bin) - bin) ltac:(lia) ltac:(lia)) as (a & CA & DA). assert (CB := fmtI_cell 10 v).
    assert (CC : exists c, oneCell (if n =? 0 then padLeft 20 "nan" else fmtF 20 15 n v) c /\ partCell n v c).
    { unfold partCell. destruct (Z.eqb_spec n 0); [exists "nan"%string; split; [apply oneCell_pad; repeat split; discriminate|reflexivity]|]. exact (fmtF_cell 20 15 n v ltac:(lia) ltac:(lia)). }
    destruct CC as (c & CC & DC). set (part := if n =? 0 then _ else _) in *. destruct (three_cells _ _ _ _ _ _ CA CB CC) as (W & EC). cbv zeta in W, EC. set (l := (fmtF 10 5 (2 * U) (2 * ((i + 1) * bin) - bin) ++ _)%string) in W, EC.
    destruct (IH (i + 1)) as (EL & HL). set (r := tsLines U bin n (i + 1) hist) in *.
    replace (fmtF 10 5 (2 * U) (2 * ((i + 1) * bin) - bin) ++ _)%string with (l ++ NL ++ r)%string by (unfold l; rewrite !sapp_assoc; reflexivity). rewrite lines_cons by exact W. split; [rewrite !zlen_cons, EL; reflexivity|].
    intros j line H0. pose proof (zget_range _ _ _ H0) as RJ. destruct (Z.eq_dec j 0) as [->|Hj].
    + rewrite zget_0 in H0. injection H0 as <-. exists v, a, c. split; [reflexivity|]. split; [exact EC|]. rewrite Z.add_0_r. split; [exact (toDecimals_eq _ _ _ _ (centre_eq U bin i HU) DA)|exact DC].
    + rewrite zget_cons in H0. destruct (Z.eqb_spec j 0); [lia|]. destruct (HL (j - 1) line H0) as (v' & a' & c' & G & EC' & DA' & DC'). exists v', a', c'. rewrite zget_cons. destruct (Z.eqb_spec j 0); [lia|]. replace (i + 1 + (j - 1)) with (i + j) in * by lia. auto.
Qed.

(** ** What stays the same during a run *)
Lemma psSteps_interval steps : forall ps ps', psSteps ps steps = Ok ps' -> ps_interval ps' = ps_interval ps.
Proof.
  induction steps as [|s steps IH]; intros ps ps' H; cbn [psSteps] in H; [injection H as <-; reflexivity|].
  destruct (psRegister ps (fst s) (fst (snd s)) (snd (snd s))) as [ps1|e] eqn:E; [|discriminate]. rewrite (IH _ _ H). clear H IH. unfold psRegister in E.
  destruct (ps_interval ps <? fst s - ps_last ps); cbn [ps_procs ps_spatial ps_interval] in E; destruct (zmem (fst (snd s)) (ps_procs ps)); try (injection E as <-; reflexivity); (destruct (ps_spatial ps) as [l|]; [destruct (numpyInc l (snd (snd s)))|]); try discriminate; injection E as <-; reflexivity.
Qed.
Lemma psRun_interval procs interval spatial nsites start steps ps : psRun procs interval spatial nsites start steps = Ok ps -> ps_interval ps = interval.
Proof. intros H. exact (psSteps_interval _ _ _ H). Qed.
Lemma coSteps_same steps : forall co co', coSteps co steps = Ok co' -> co_interval co' = co_interval co /\ co_empty co' = co_empty co.
Proof.
  induction steps as [|s steps IH]; intros co co' H; cbn [coSteps] in H; [injection H as <-; split; reflexivity|].
  destruct (coRegister co (fst s) (snd s)) as [co1|e] eqn:E; [|discriminate]. destruct (IH _ _ H) as (-> & ->). clear H IH. unfold coRegister in E.
  destruct (co_interval co <? fst s - co_last co); destruct (numpyAdd _ _); try discriminate; injection E as <-; split; reflexivity.
Qed.
Lemma tsSteps_bin passes times : forall ts ts', tsSteps passes ts times = Some (Ok ts') -> ts_bin ts' = ts_bin ts.
Proof.
  induction times as [|t times IH]; intros ts ts' H; cbn [tsSteps] in H; [injection H as <-; reflexivity|].
  destruct (tsRegister passes ts t) as [[ts1|e]|] eqn:E; cbn [Base.obind] in H; try discriminate. rewrite (IH _ _ H). clear H IH. unfold tsRegister in E. destruct (ts_bin ts =? 0); [discriminate|]. destruct (tsGrow _ _ _); [|discriminate]. cbn [Base.obind] in E. destruct (numpyInc _ _); [|discriminate]. injection E as <-. reflexivity.
Qed.

(** ** Histories in order *)
Definition notLater {A} (x y : Z * A) : Prop := fst x <= fst y.
Lemma forwards_sorted {A} steps : forall (t : Z) (a : A), forwards t (map fst steps) -> StronglySorted notLater ((t, a) :: steps).
Proof.
  induction steps as [|[t' a'] steps IH]; intros t a H; [constructor; constructor|]. assert (H0 : t <= t') by (specialize (H (t' - t) (or_introl eq_refl)); lia). assert (H1 : forwards t' (map fst steps)) by (intros d Hd; apply H; right; exact Hd).
  specialize (IH t' a' H1). constructor; [exact IH|]. apply StronglySorted_inv in IH. destruct IH as (_ & IH). constructor; [exact H0|]. eapply Forall_impl; [|exact IH]. intros y Hy. unfold notLater in *. cbn [fst] in *. lia.
Qed.
Lemma sorted_app {A} (R : A -> A -> Prop) l m : StronglySorted R (l ++ m) -> StronglySorted R l /\ StronglySorted R m.
Proof.
  induction l as [|a l IH]; intros H; [split; [constructor|exact H]|]. cbn [app] in H. apply StronglySorted_inv in H. destruct H as (H1 & H2). destruct (IH H1) as (I1 & I2). split; [|exact I2]. constructor; [exact I1|]. apply Forall_app in H2. apply H2.
Qed.
Lemma sorted_block {A} (R : A -> A -> Prop) blocks b : StronglySorted R (concat blocks) -> In b blocks -> StronglySorted R b.
Proof.
  induction blocks as [|c blocks IH]; intros H Hb; [destruct Hb|]. cbn [concat] in H. destruct (sorted_app _ _ _ H) as (H1 & H2). destruct Hb as [<-|Hb]; [exact H1|exact (IH H2 Hb)].
Qed.
Lemma block_starts {A} interval (history : list (Z * A)) blocks t0 : inBlocks interval history blocks -> (exists x r, history = (t0, x) :: r) ->
  forall n b t, zget blocks (Z.of_nat n) = Some b -> startsAt b t -> t0 + Z.of_nat n * interval <= t /\ ((0 < n)%nat -> t0 + Z.of_nat n * interval < t).
Proof.
  intros (HC & HB & HN) (x & r & HH). induction n as [|n IH]; intros b t Hb Ht.
  - destruct blocks as [|b0 blocks]; [discriminate|]. cbn in Hb. injection Hb as ->. destruct Ht as (y & r' & ->). cbn in HC. rewrite HH in HC. injection HC as -> _ _. split; [lia|intros; lia].
  - assert (Hp : exists b', zget blocks (Z.of_nat n) = Some b') by (apply zget_lt; apply zget_range in Hb; lia). destruct Hp as (b' & Hb'). destruct (HB _ _ Hb') as (t' & Ht' & _). destruct (IH b' t' Hb' Ht') as (I1 & _). replace (Z.of_nat (S n)) with (Z.of_nat n + 1) in Hb by lia. specialize (HN _ _ _ _ _ Hb' Hb Ht' Ht). split; [|intros _]; nia.
Qed.
