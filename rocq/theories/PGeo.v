(** Geometry: order of points, padding with wildcards, translation invariance. *)
From Coq Require Import Sorted.
From Verif Require Import PBase SModel SGeo PLattice PProcess PMatcher PPerform PStep.
Open Scope Z_scope.
Open Scope list_scope.

(** ** order of points *)
Definition ceqb (a b : coord) : bool := (cx a =? cx b) && (cy a =? cy b) && (cz a =? cz b).
Lemma ceqb_eq a b : ceqb a b = true <-> a = b.
Proof.
  unfold ceqb. destruct a as [a1 a2 a3], b as [b1 b2 b3]; cbn [cx cy cz]. split.
  - intros H. apply andb_prop in H. destruct H as [H H3]. apply andb_prop in H. destruct H as [H1 H2]. f_equal; lia.
  - intros H; inversion H. rewrite !Z.eqb_refl. reflexivity.
Qed.
Definition clt (a b : coord) : bool :=
  if cnorm2 a =? cnorm2 b then
    if cx a <? cx b then true else if cx b <? cx a then false
    else if cy a <? cy b then true else if cy b <? cy a then false else cz a <? cz b
  else cnorm2 a <? cnorm2 b.
Ltac zb := repeat match goal with
  | |- context[?a =? ?b] => destruct (Z.eqb_spec a b)
  | |- context[?a <? ?b] => destruct (Z.ltb_spec a b)
  | |- context[?a <=? ?b] => destruct (Z.leb_spec a b)
  end.
Lemma clt_irrefl a : clt a a = false.
Proof. unfold clt. zb; try reflexivity; lia. Qed.
Lemma clt_asym a b : clt a b = true -> clt b a = false.
Proof. unfold clt. zb; intros; try reflexivity; try discriminate; lia. Qed.
Lemma clt_trans a b c : clt a b = true -> clt b c = true -> clt a c = true.
Proof. unfold clt. zb; intros; try reflexivity; try discriminate; lia. Qed.
Lemma clt_total a b : clt a b = false -> clt b a = false -> a = b.
Proof.
  unfold clt. destruct a as [a1 a2 a3], b as [b1 b2 b3]; cbn [cx cy cz].
  generalize (cnorm2 (mkC a1 a2 a3)) (cnorm2 (mkC b1 b2 b3)). intros n m.
  zb; intros; try discriminate; try lia; f_equal; lia.
Qed.
Lemma cltn_trans a b c : clt b a = false -> clt c b = false -> clt c a = false.
Proof.
  intros H1 H2. destruct (clt c a) eqn:E; [|reflexivity]. destruct (clt a b) eqn:E2.
  - rewrite (clt_trans _ _ _ E E2) in H2. discriminate.
  - rewrite (clt_total _ _ E2 H1) in E. congruence.
Qed.

Lemma distFar_refl S a : 0 < S -> distFar S a a = false.
Proof. unfold distFar, distGap. rewrite Z.max_id, Z.min_id, Z.sub_diag, Z.mul_0_r. intros H. zb; cbn [andb]; try reflexivity; nia. Qed.
Lemma distNear_refl S a : 0 < S -> distNear S a a = true.
Proof. unfold distNear, distGap. rewrite Z.max_id, Z.min_id, Z.sub_diag, Z.mul_0_r. intros H. zb; cbn [orb]; try reflexivity; nia. Qed.
Lemma distFar_notNear S a b : distFar S a b = true -> distNear S a b = false.
Proof. unfold distFar, distNear. generalize (distGap S a b). intros d. zb; cbn; try discriminate; try reflexivity; lia. Qed.

Section Clean.
Context (S : Z) (HS : 0 < S < 100000) (P : coord -> Prop) (HP : cleanPts S P).
Lemma coFar_eq a b : coFar S a b = negb (a =? b).
Proof using HS. unfold coFar. zb; cbn [negb]; try reflexivity; lia. Qed.
Lemma pointLt_clean a b : P a -> P b -> pointLt S (cnorm2 a) a (cnorm2 b) b = clt a b.
Proof using HS HP.
  intros Pa Pb. unfold pointLt, clt. destruct (Z.eqb_spec (cnorm2 a) (cnorm2 b)) as [E|E].
  - rewrite E, distNear_refl by lia. reflexivity.
  - rewrite distFar_notNear by (apply HP; auto). reflexivity.
Qed.
Lemma samePoint_clean a b : P a -> P b -> samePoint S (cnorm2 a) a (cnorm2 b) b = ceqb a b.
Proof using HS HP.
  intros Pa Pb. unfold samePoint. rewrite !coFar_eq. unfold ceqb.
  destruct (distFar S (cnorm2 a) (cnorm2 b)) eqn:E.
  - zb; try reflexivity. exfalso. assert (a = b) by (destruct a as [a1 a2 a3], b as [b1 b2 b3]; cbn [cx cy cz] in *; congruence). subst.
    rewrite distFar_refl in E by lia. discriminate.
  - zb; reflexivity.
Qed.
End Clean.
Lemma samePoint_refl S d c : 0 < S -> samePoint S d c d c = true.
Proof.
  intros HS. unfold samePoint. rewrite distFar_refl by auto. unfold coFar. rewrite !Z.sub_diag, Z.abs_0, Z.mul_0_r.
  destruct (Z.ltb_spec S 0); [lia|reflexivity].
Qed.

(** sufficient condition for cleanliness *)
Lemma clean_small S D (P : coord -> Prop) : 0 < S -> 4 * D * (S * S) <= e10 -> (forall a, P a -> cnorm2 a <= D) -> cleanPts S P.
Proof.
  intros HS HD HB a b Pa Pb Hne. pose proof (HB a Pa) as Ha. pose proof (HB b Pb) as Hb.
  assert (0 <= cnorm2 a) by (unfold cnorm2; nia). assert (0 <= cnorm2 b) by (unfold cnorm2; nia).
  unfold distFar, distGap. set (lo := Z.min (cnorm2 a) (cnorm2 b)). set (hi := Z.max (cnorm2 a) (cnorm2 b)).
  assert (0 <= lo) by (unfold lo; lia). assert (lo + 1 <= hi) by (unfold lo, hi; lia). assert (hi <= D) by (unfold hi; lia).
  clearbody lo hi. set (Q := S * S) in *. assert (0 < Q) by (unfold Q; nia). clearbody Q.
  unfold e10 in *. set (E := 10000000000) in *. assert (0 < E) by (unfold E; lia). clearbody E.
  assert (H6 : 4 * (lo + 1) * Q <= E) by nia.
  assert (H7 : E - Q <= E * (hi - lo) - Q) by nia.
  set (d := E * (hi - lo) - Q) in *. clearbody d.
  assert (H8 : 0 < E - Q) by nia.
  assert (H9 : (E - Q) * (E - Q) <= d * d) by nia.
  assert (H10 : 4 * Q * (E * lo) < (E - Q) * (E - Q)) by nia.
  destruct (Z.ltb_spec 0 d); [|lia]. destruct (Z.ltb_spec (4 * Q * (E * lo)) (d * d)); [reflexivity|lia].
Qed.

Lemma Forall2_impl_local {A B} (P Q : A -> B -> Prop) l m : (forall a b, In b m -> P a b -> Q a b) -> Forall2 P l m -> Forall2 Q l m.
Proof. intros H HF. induction HF; constructor; [apply H; [left; reflexivity|assumption]|]. apply IHHF. intros; apply H; [right|]; assumption. Qed.
Lemma firstn_In_local {A} n (l : list A) a : In a (firstn n l) -> In a l.
Proof. revert n; induction l; intros [|n]; simpl; try tauto. intros [H|H]; [auto|right; eauto]. Qed.

(** ** padding: general facts *)
Inductive padded : list pentry -> list centry -> list pentry -> list Z -> Z -> Prop :=
| pad_rest pl n : padded pl [] pl [] n
| pad_done cl n : padded [] cl [] [] n
| pad_keep p pl c cl l m n : padded pl cl l m (n + 1) -> padded (p :: pl) (c :: cl) (p :: l) (n :: m) n
| pad_wild pl c cl l m n : padded pl cl l m (n + 1) -> padded pl (c :: cl) (initWildcard c :: l) m n.

Lemma insert_padded S cl : forall pl n, padded pl cl (fst (insertWildcards S pl cl n)) (snd (insertWildcards S pl cl n)) n.
Proof.
  induction cl as [|c cl IH]; intros pl n; cbn [insertWildcards].
  - apply pad_rest.
  - destruct pl as [|p pl]; [apply pad_done|].
    destruct (samePoint S (pe_d2 p) (pe_c p) (ce_d2 c) (ce_c c)).
    + specialize (IH pl (n + 1)). destruct (insertWildcards S pl cl (n + 1)). apply pad_keep. exact IH.
    + specialize (IH (p :: pl) (n + 1)). destruct (insertWildcards S (p :: pl) cl (n + 1)). apply pad_wild. exact IH.
Qed.
Lemma padded_In pl cl l m n : padded pl cl l m n -> forall e, In e pl -> In e l.
Proof. induction 1; intros e He; try (destruct He; auto; fail); auto; [destruct He; [left; auto|right; auto]|right; auto]. Qed.
Lemma padded_In_inv pl cl l m n : padded pl cl l m n -> forall e, In e l -> In e pl \/ exists c, In c cl /\ e = initWildcard c.
Proof.
  induction 1; intros e He; auto.
  - destruct He as [->|He]; [left; left; auto|]. destruct (IHpadded e He) as [H1|(c' & H1 & H2)]; [left; right; auto|right; exists c'; split; [right|]; auto].
  - destruct He as [<-|He]; [right; exists c; split; [left|]; auto|].
    destruct (IHpadded e He) as [H1|(c' & H1 & H2)]; [left; auto|right; exists c'; split; [right|]; auto].
Qed.

Lemma wild_init c : ce_types c <> [] -> wildEntry (initWildcard c).
Proof.
  intros H. unfold wildEntry, initWildcard. cbn [pe_match]. rewrite zget_map.
  rewrite zget_zrange; [reflexivity|]. destruct (ce_types c) as [|b0 l0]; [congruence|]. rewrite zlen_cons. pose proof (zlen_nonneg l0). lia.
Qed.
Lemma upd_init c : pe_upd (initWildcard c) = map (fun _ => 0) (ce_types c).
Proof. reflexivity. Qed.
Lemma zsum_abs_zero {A} (l : list A) : zsum (map Z.abs (map (fun _ => 0) l)) = 0.
Proof. induction l; cbn [map zsum fold_right]; [reflexivity|]. unfold zsum in IHl. rewrite IHl. reflexivity. Qed.
Lemma inactive_init c : activeEntry (pe_upd (initWildcard c)) = Some false.
Proof. unfold activeEntry. rewrite upd_init, zsum_abs_zero. reflexivity. Qed.

(** ** padding on aligned sorted lists *)
Section Align.
Context (S : Z) (HS : 0 < S < 100000) (P : coord -> Prop) (HP : cleanPts S P).
Definition goodC (c : centry) : Prop := ce_d2 c = cnorm2 (ce_c c) /\ P (ce_c c).
Definition goodP (p : pentry) : Prop := pe_d2 p = cnorm2 (pe_c p) /\ P (pe_c p).
Definition csorted (l : list coord) : Prop := StronglySorted (fun a b => clt a b = true) l.

Lemma insert_aligned cl : forall pl n, Forall goodC cl -> Forall goodP pl ->
  csorted (map ce_c cl) -> csorted (map pe_c pl) ->
  (forall e, In e pl -> In (pe_c e) (map ce_c cl)) ->
  let l := fst (insertWildcards S pl cl n) in let m := snd (insertWildcards S pl cl n) in
  (exists k, Forall2 (fun e c => (In e pl /\ pe_c e = ce_c c) \/ (e = initWildcard c /\ ~ In (ce_c c) (map pe_c pl))) l (firstn k cl)) /\
  length m = length pl /\
  (forall j e, zget pl j = Some e -> exists i, zget m j = Some i /\ n <= i /\ zget l (i - n) = Some e).
Proof using HS HP.
  induction cl as [|c cl IH]; intros pl n GC GP SC SP HI; cbn [insertWildcards].
  - destruct pl as [|p pl]; [|exfalso; apply (HI p); left; reflexivity]. cbn [fst snd]. split; [exists O; constructor|].
    split; [reflexivity|]. intros j e. rewrite zget_nil. discriminate.
  - destruct pl as [|p pl].
    { cbn [fst snd]. split; [exists O; constructor|]. split; [reflexivity|]. intros j e. rewrite zget_nil. discriminate. }
    inversion GC as [|? ? G1 G2]; subst. inversion GP as [|? ? G3 G4]; subst. destruct G1 as [D1 P1]. destruct G3 as [D3 P3].
    cbn [map] in SC, SP. inversion SC as [|? ? SC1 SC2]; subst. inversion SP as [|? ? SP1 SP2]; subst.
    rewrite D1, D3, (samePoint_clean S HS P HP) by auto. destruct (ceqb (pe_c p) (ce_c c)) eqn:E.
    + apply ceqb_eq in E. specialize (IH pl (n + 1) G2 G4 SC1 SP1).
      destruct (insertWildcards S pl cl (n + 1)) as [l m]. cbn [fst snd] in *.
      destruct IH as ((k & IH1) & IH2 & IH3).
      { intros e He. destruct (HI e (or_intror He)) as [H|H]; [|exact H]. exfalso.
        rewrite Forall_forall in SP2. specialize (SP2 (pe_c e) (in_map pe_c _ _ He)).
        rewrite <- H, <- E, clt_irrefl in SP2. discriminate. }
      split; [|split].
      * exists (Datatypes.S k). cbn [firstn]. constructor; [left; split; [left; reflexivity|exact E]|].
        eapply Forall2_impl_local; [|exact IH1]. intros e0 c0 Hc0 [[H1 H2]|[H1 H2]]; [left; split; [right|]; auto|right; split; [exact H1|]].
        cbn [map]. intros [H|H]; [|auto]. rewrite Forall_forall in SC2.
        assert (In (ce_c c0) (map ce_c cl)) by (apply in_map; eapply firstn_In_local; eauto).
        specialize (SC2 _ H0). rewrite <- H, E, clt_irrefl in SC2. discriminate.
      * cbn [length]. congruence.
      * intros j e. rewrite !zget_cons. destruct (Z.eqb_spec j 0).
        -- intros H; inversion H; subst. exists n. split; [reflexivity|]. split; [lia|]. rewrite Z.sub_diag. reflexivity.
        -- intros H. destruct (IH3 _ _ H) as (i & H1 & H2 & H3). exists i. split; [exact H1|]. split; [lia|].
           rewrite zget_cons. destruct (Z.eqb_spec (i - n) 0); [lia|]. replace (i - n - 1) with (i - (n + 1)) by lia. exact H3.
    + assert (Hne : pe_c p <> ce_c c) by (intros H; apply ceqb_eq in H; congruence).
      specialize (IH (p :: pl) (n + 1) G2 GP SC1 SP).
      destruct (insertWildcards S (p :: pl) cl (n + 1)) as [l m]. cbn [fst snd] in *.
      assert (Hp : clt (ce_c c) (pe_c p) = true).
      { destruct (HI p (or_introl eq_refl)) as [H|H]; [congruence|]. rewrite Forall_forall in SC2. auto. }
      assert (Hlt : forall e, In e (p :: pl) -> clt (ce_c c) (pe_c e) = true).
      { intros e [<-|He]; [exact Hp|]. rewrite Forall_forall in SP2. eapply clt_trans; [exact Hp|]. apply SP2. apply in_map; auto. }
      destruct IH as ((k & IH1) & IH2 & IH3).
      { intros e He. destruct (HI e He) as [H|H]; [|exact H]. specialize (Hlt e He). rewrite <- H, clt_irrefl in Hlt. discriminate. }
      split; [|split].
      * exists (Datatypes.S k). cbn [firstn]. constructor; [|exact IH1].
        right. split; [reflexivity|]. intros H. apply in_map_iff in H. destruct H as (e & H1 & H2). specialize (Hlt e H2).
        rewrite H1, clt_irrefl in Hlt. discriminate.
      * exact IH2.
      * intros j e H. destruct (IH3 _ _ H) as (i & H1 & H2 & H3). exists i. split; [exact H1|]. split; [lia|].
        rewrite zget_cons. destruct (Z.eqb_spec (i - n) 0); [lia|]. replace (i - n - 1) with (i - (n + 1)) by lia. exact H3.
Qed.
End Align.

Lemma sameMod_trans p P a b c : sameMod p P a b -> sameMod p P b c -> sameMod p P a c.
Proof. destruct p; simpl; [intros [n ->] [m ->]; exists (n + m); ring|congruence]. Qed.
Lemma sameMod_sym p P a b : sameMod p P a b -> sameMod p P b a.
Proof. destruct p; simpl; [intros [n ->]; exists (- n); ring|congruence]. Qed.
Lemma sameDisp_trans L a b c : sameDisp L a b -> sameDisp L b c -> sameDisp L a c.
Proof. intros (A1 & A2 & A3) (B1 & B2 & B3). repeat split; eapply sameMod_trans; eauto. Qed.
Lemma sameDisp_sym L a b : sameDisp L a b -> sameDisp L b a.
Proof. intros (A1 & A2 & A3). repeat split; apply sameMod_sym; auto. Qed.

Definition windowC (L : lattice) (v : coord) : Prop :=
  window1 (lt_pa L) (lt_ra L * lt_unit L) (cx v) /\ window1 (lt_pb L) (lt_rb L * lt_unit L) (cy v) /\
  window1 (lt_pc L) (lt_rc L * lt_unit L) (cz v).
Lemma windowC_unique L v w : wf_lattice L -> windowC L v -> windowC L w -> sameDisp L v w -> v = w.
Proof.
  intros [] (A1 & A2 & A3) (B1 & B2 & B3) (C1 & C2 & C3). destruct v as [v1 v2 v3], w as [w1 w2 w3]; cbn [cx cy cz] in *.
  f_equal.
  - destruct (lt_pa L); [apply (window_unique (lt_ra L * lt_unit L)); auto; nia|simpl in C1; auto].
  - destruct (lt_pb L); [apply (window_unique (lt_rb L * lt_unit L)); auto; nia|simpl in C2; auto].
  - destruct (lt_pc L); [apply (window_unique (lt_rc L * lt_unit L)); auto; nia|simpl in C3; auto].
Qed.

Section Uniform.
Context (L : lattice) (WF : wf_lattice L) (basis : list coord) (WB : wf_basis L basis).
Notation coords := (generateLatticeSites L basis).

Lemma coords_range x c : zget coords x = Some c -> 0 <= x < nsites L.
Proof using WF WB. intros E. rewrite <- (lattice_sites_len L WF basis) by apply WB. eapply zget_range; eauto. Qed.
Lemma coords_get x : 0 <= x < nsites L -> exists c, zget coords x = Some c.
Proof using WF WB. intros H. apply zget_lt. rewrite lattice_sites_len; auto. apply WB. Qed.

Lemma disp_spec x y c d : zget coords x = Some c -> zget coords y = Some d ->
  sameDisp L (csub d c) (wrapCoord L (csub d c)) /\ windowC L (wrapCoord L (csub d c)).
Proof using WF WB.
  intros Ec Ed. pose proof (site_coord_range L WF basis WB x c (coords_range _ _ Ec) Ec).
  pose proof (site_coord_range L WF basis WB y d (coords_range _ _ Ed) Ed).
  destruct (wrapCoord_spec L WF (csub d c)) as (A & B & C & D); unfold csub; cbn [cx cy cz]; try lia.
  split; [exact A|]. split; [exact B|]. split; [exact C|exact D].
Qed.

Lemma siteAt_unique x v y y' : siteAt L coords x v y -> siteAt L coords x v y' -> y = y'.
Proof using WF WB.
  intros (c & d & Ec & Ed & H) (c' & d' & Ec' & Ed' & H'). assert (c' = c) by congruence. subst c'.
  apply (site_coord_inj L WF basis WB y y' d d'); eauto using coords_range.
  destruct H as (A1 & A2 & A3), H' as (B1 & B2 & B3). unfold csub in *. cbn [cx cy cz] in *.
  assert (HH : forall p P a b v c, sameMod p P (a - c) v -> sameMod p P (b - c) v -> sameMod p P a b).
  { intros p P a b v0 c0 Ha Hb. pose proof (sameMod_trans _ _ _ _ _ Ha (sameMod_sym _ _ _ _ Hb)) as Hc.
    destruct p; simpl in *; [destruct Hc as [n Hn]; exists n; lia|lia]. }
  repeat split; eapply HH; eauto.
Qed.

Context (R : Z) (HR : 0 <= R) (HU : uniform L R).

Lemma near_reach x y c d : zget coords x = Some c -> zget coords y = Some d -> nearSites L R x y ->
  inReach L basis R (basisSiteFromIndex L x) (wrapCoord L (csub d c)).
Proof using WF WB HR HU.
  intros Ec Ed (i & j & k & b & i' & j' & k' & b' & Hs & -> & Hs' & -> & N1 & N2 & N3).
  pose proof (disp_spec _ _ _ _ Ec Ed) as [SD WD].
  destruct (basis_get L basis WB b) as (beta & Eb & Hb); [apply Hs|].
  destruct (basis_get L basis WB b') as (beta' & Eb' & Hb'); [apply Hs'|].
  assert (EL : zlen basis = lt_nb L) by apply WB.
  rewrite (lattice_sites_get L WF basis i j k b beta EL Hs Eb) in Ec.
  rewrite (lattice_sites_get L WF basis i' j' k' b' beta' EL Hs' Eb') in Ed.
  inversion Ec; subst c; clear Ec. inversion Ed; subst d; clear Ed.
  set (v := wrapCoord L _) in *. clearbody v. destruct v as [v1 v2 v3].
  unfold csub in SD. cbn [cx cy cz] in SD. destruct SD as (S1 & S2 & S3). cbn [cx cy cz] in *.
  rewrite (basis_global L WF _ _ _ _ Hs).
  assert (HH : forall p rep i i' a a' v, uniformAxis p rep R -> 0 <= i < rep -> 0 <= i' < rep -> axisNear p rep R i i' ->
     sameMod p (rep * lt_unit L) (a' + i' * lt_unit L - (a + i * lt_unit L)) v ->
     exists n, reach1 p rep R n /\ v = a' - a + n * lt_unit L).
  { clear. intros p rep i i' a a' v U Hi Hi' N SM. destruct p.
    - simpl in SM, N. destruct SM as [n ->], N as [m Hm]. exists (i' - i + n * rep). split; [|ring].
      simpl. exists (m - n). replace (i' - i + n * rep + (m - n) * rep) with (i' + m * rep - i) by ring. exact Hm.
    - simpl in SM. subst v. destruct U as [[U _]|[_ ->]]; [discriminate|]. exists 0. split; [reflexivity|].
      replace i with 0 by lia. replace i' with 0 by lia. ring. }
  destruct HU as (U1 & U2 & U3). destruct Hs as (I1 & I2 & I3 & I4), Hs' as (J1 & J2 & J3 & J4).
  destruct (HH _ _ _ _ _ _ _ U1 I1 J1 N1 S1) as (n1 & R1 & E1).
  destruct (HH _ _ _ _ _ _ _ U2 I2 J2 N2 S2) as (n2 & R2 & E2).
  destruct (HH _ _ _ _ _ _ _ U3 I3 J3 N3 S3) as (n3 & R3 & E3).
  destruct WD as (W1 & W2 & W3).
  exists b', beta, beta', n1, n2, n3. split; [exact Eb|]. split; [exact Eb'|]. split; [exact R1|]. split; [exact R2|]. split; [exact R3|].
  split; [congruence|]. auto.
Qed.

Lemma reach_near x v : 0 <= x < nsites L -> inReach L basis R (basisSiteFromIndex L x) v ->
  exists y c d, zget coords x = Some c /\ zget coords y = Some d /\ nearSites L R x y /\ wrapCoord L (csub d c) = v.
Proof using WF WB HR HU.
  intros Hx (b' & beta & beta' & n1 & n2 & n3 & Eb & Eb' & R1 & R2 & R3 & -> & W1 & W2 & W3).
  destruct (site_of_index L WF x Hx) as (i & j & k & b & Hs & ->). rewrite (basis_global L WF _ _ _ _ Hs) in Eb.
  assert (EL : zlen basis = lt_nb L) by apply WB.
  assert (HH : forall p rep i n, uniformAxis p rep R -> 0 < rep -> 0 <= i < rep -> reach1 p rep R n ->
     exists i' m, 0 <= i' < rep /\ axisNear p rep R i i' /\ i' = i + n + m * rep /\ (p = false -> m = 0)).
  { clear -HR. intros p rep i n U Hr Hi Hn. destruct p.
    - exists ((i + n) mod rep), (- ((i + n) / rep)). pose proof (Z.mod_pos_bound (i + n) rep Hr).
      pose proof (Z.div_mod (i + n) rep ltac:(lia)). split; [auto|]. split; [|split; [nia|discriminate]].
      simpl in *. destruct Hn as [m Hm]. exists (m + (i + n) / rep).
      replace ((i + n) mod rep + (m + (i + n) / rep) * rep - i) with (n + m * rep) by nia. exact Hm.
    - simpl in Hn. subst n. exists i, 0. split; [auto|]. split; [simpl; lia|]. split; [lia|auto]. }
  pose proof WF as WF2. destruct WF2. destruct HU as (U1 & U2 & U3). pose proof Hs as (I1 & I2 & I3 & I4).
  destruct (HH _ _ _ _ U1 wfl_ra I1 R1) as (i' & m1 & A1 & A2 & A3 & A4).
  destruct (HH _ _ _ _ U2 wfl_rb I2 R2) as (j' & m2 & B1 & B2 & B3 & B4).
  destruct (HH _ _ _ _ U3 wfl_rc I3 R3) as (k' & m3 & C1 & C2 & C3 & C4).
  assert (Hb' : 0 <= b' < lt_nb L) by (rewrite <- EL; eapply zget_range; eauto).
  assert (Hs' : isSite L i' j' k' b') by (unfold isSite; auto).
  pose proof (lattice_sites_get L WF basis i j k b beta EL Hs Eb) as Ec.
  pose proof (lattice_sites_get L WF basis i' j' k' b' beta' EL Hs' Eb') as Ed.
  eexists (globalIndex L i' j' k' b'), _, _. split; [exact Ec|]. split; [exact Ed|]. split.
  - exists i, j, k, b, i', j', k', b'. auto 10.
  - pose proof (disp_spec _ _ _ _ Ec Ed) as [SD WD]. apply (windowC_unique L); auto.
    + split; [exact W1|]. split; [exact W2|exact W3].
    + eapply sameDisp_trans; [apply sameDisp_sym; exact SD|]. unfold csub, sameDisp. cbn [cx cy cz].
      split; [|split].
      * destruct (lt_pa L); simpl; [exists (- m1); subst i'; ring|]. rewrite A4 in A3 by reflexivity. subst i'. ring.
      * destruct (lt_pb L); simpl; [exists (- m2); subst j'; ring|]. rewrite B4 in B3 by reflexivity. subst j'. ring.
      * destruct (lt_pc L); simpl; [exists (- m3); subst k'; ring|]. rewrite C4 in C3 by reflexivity. subst k'. ring.
Qed.

Lemma reach_window b v : inReach L basis R b v -> windowC L v.
Proof using. intros (b' & beta & beta' & n1 & n2 & n3 & _ & _ & _ & _ & _ & _ & W). exact W. Qed.

Lemma siteAt_disp x v y c d : inReach L basis R (basisSiteFromIndex L x) v -> zget coords x = Some c -> zget coords y = Some d ->
  siteAt L coords x v y -> wrapCoord L (csub d c) = v /\ nearSites L R x y.
Proof using WF WB HR HU.
  intros Hr Ec Ed HA. destruct (reach_near x v (coords_range _ _ Ec) Hr) as (y' & c' & d' & Ec' & Ed' & N & E).
  assert (c' = c) by congruence. subst c'.
  assert (siteAt L coords x v y').
  { exists c, d'. split; [exact Ec|]. split; [exact Ed'|]. rewrite <- E. eapply disp_spec; eauto. }
  assert (y' = y) by (eapply siteAt_unique; eauto). subst y'. assert (d' = d) by congruence. subst d'. auto.
Qed.

(** ** the sorted neighbourhood of a site *)
Context (HS : lt_unit L < 100000).
Definition cleanAt (b : Z) : Prop := cleanPts (lt_unit L) (inReach L basis R b).

Lemma uniform_fits : fits1 (lt_pa L) (lt_ra L) R /\ fits1 (lt_pb L) (lt_rb L) R /\ fits1 (lt_pc L) (lt_rc L) R.
Proof using HU.
  destruct HU as (U1 & U2 & U3). unfold fits1. repeat split; intros E;
  match goal with U : uniformAxis ?p _ _ |- _ => match goal with E : p = true |- _ => destruct U as [[_ U]|[U _]]; [exact U|congruence] end end.
Qed.

Record sortedGeo (x : Z) (g : list centry) : Prop := {
  sg_sorted : csorted (map ce_c g);
  sg_index : Permutation (map ce_index g) (neighbourIndices L x R);
  sg_nodup : NoDup (map ce_index g);
  sg_reach : forall v, In v (map ce_c g) <-> inReach L basis R (basisSiteFromIndex L x) v;
  sg_good : Forall (goodC (inReach L basis R (basisSiteFromIndex L x))) g;
  sg_siteAt : forall e, In e g -> siteAt L coords x (ce_c e) (ce_index e);
  sg_range : forall e, In e g -> 0 <= ce_index e < nsites L }.

Lemma sorted_clt (l : list coord) : StronglySorted (fun a b => clt b a = false) l -> NoDup l -> csorted l.
Proof using.
  intros H ND. induction H as [|a l H IH HF]; [constructor|]. inversion ND; subst. constructor; [apply IH; auto|].
  rewrite Forall_forall in *. intros b Hb. destruct (clt a b) eqn:E; [reflexivity|].
  exfalso. apply H2. rewrite (clt_total a b E (HF b Hb)). exact Hb.
Qed.
Lemma sorted_map {A B} (f : A -> B) (Q : B -> B -> Prop) l : StronglySorted (fun a b => Q (f a) (f b)) l -> StronglySorted Q (map f l).
Proof using.
  induction 1; cbn [map]; constructor; auto. rewrite Forall_forall in *. intros b Hb. apply in_map_iff in Hb.
  destruct Hb as (a' & <- & Ha'). auto.
Qed.
Lemma NoDup_map_both {A B C} (f : A -> B) (h : A -> C) l : (forall a b, In a l -> In b l -> h a = h b -> f a = f b) ->
  NoDup (map f l) -> NoDup (map h l).
Proof using.
  intros Hi ND. induction l as [|a l IH]; cbn [map] in *; [constructor|]. inversion ND; subst. constructor.
  - intros Hin. apply in_map_iff in Hin. destruct Hin as (b & E & Hb). apply H1. rewrite <- (Hi b a); [apply in_map; exact Hb|right; exact Hb|left; reflexivity|exact E].
  - apply IH; auto. intros b c Hb Hc. apply Hi; right; auto.
Qed.

Lemma sorted_impl_In {A} (Q Q' : A -> A -> Prop) l : (forall a b, In a l -> In b l -> Q a b -> Q' a b) ->
  StronglySorted Q l -> StronglySorted Q' l.
Proof using.
  intros H HSt. induction HSt as [|a l HSt IH HF]; constructor.
  - apply IH. intros; apply H; [right|right|]; auto.
  - rewrite Forall_forall in *. intros b Hb. apply H; [left; reflexivity|right; exact Hb|auto].
Qed.

Lemma scratchGeo_sorted x g : 0 <= x < nsites L -> cleanAt (basisSiteFromIndex L x) ->
  scratchGeo L R coords x = Some g -> sortedGeo x g.
Proof using WF WB HR HU HS.
  intros Hx HC Hg. pose proof (scratchGeo_index _ _ _ _ _ Hg) as HP.
  assert (HN : forall e, In e g -> nearSites L R x (ce_index e)).
  { intros e He. apply neighbour_spec; auto. eapply Permutation_in; [exact HP|]. apply in_map; exact He. }
  assert (HE : forall e, In e g -> exists c d, zget coords x = Some c /\ zget coords (ce_index e) = Some d /\
     ce_c e = wrapCoord L (csub d c) /\ ce_d2 e = cnorm2 (ce_c e)) by (intros e He; eapply scratchGeo_entry; eauto).
  assert (HG : Forall (goodC (inReach L basis R (basisSiteFromIndex L x))) g).
  { apply Forall_forall. intros e He. destruct (HE e He) as (c & d & Ec & Ed & E1 & E2). split; [exact E2|]. rewrite E1.
    eapply near_reach; eauto. }
  assert (HA : forall e, In e g -> siteAt L coords x (ce_c e) (ce_index e)).
  { intros e He. destruct (HE e He) as (c & d & Ec & Ed & E1 & _). exists c, d. split; [auto|]. split; [auto|]. rewrite E1.
    eapply disp_spec; eauto. }
  assert (HNI : NoDup (map ce_index g)).
  { eapply Permutation_NoDup; [apply Permutation_sym; exact HP|]. destruct uniform_fits as (F1 & F2 & F3). apply neighbour_NoDup; auto. }
  assert (HNC : NoDup (map ce_c g)).
  { eapply NoDup_map_both; [|exact HNI]. intros a b Ha Hb E. eapply siteAt_unique; [apply HA; exact Ha|]. rewrite E. apply HA; exact Hb. }
  assert (HSt : StronglySorted (nlt (ceLt (lt_unit L))) g).
  { unfold scratchGeo in Hg. ob Hg as center Ec. ob Hg as gs Egs. inversion Hg; subst g.
    assert (HD : Forall (goodC (inReach L basis R (basisSiteFromIndex L x))) gs).
    { apply Forall_forall. intros e He. rewrite Forall_forall in HG. apply HG. apply isort_In. exact He. }
    assert (HL : forall a b, goodC (inReach L basis R (basisSiteFromIndex L x)) a -> goodC (inReach L basis R (basisSiteFromIndex L x)) b ->
       ceLt (lt_unit L) a b = clt (ce_c a) (ce_c b)).
    { intros a b [A1 A2] [B1 B2]. unfold ceLt. rewrite A1, B1. apply (pointLt_clean (lt_unit L) ltac:(destruct WF; lia) _ HC); auto. }
    apply isort_sorted with (D := goodC (inReach L basis R (basisSiteFromIndex L x))); auto.
    - intros a b Ha Hb. rewrite !HL by auto. apply clt_asym.
    - intros a b c Ha Hb Hc. unfold nlt. rewrite !HL by auto. intros H1 H2. eapply cltn_trans; eauto. }
  constructor; auto.
  - apply sorted_clt; [|exact HNC]. apply sorted_map. eapply sorted_impl_In; [|exact HSt].
    intros a b Ha Hb. rewrite Forall_forall in HG. unfold nlt, ceLt. destruct (HG a Ha) as [A1 A2], (HG b Hb) as [B1 B2].
    rewrite A1, B1, (pointLt_clean (lt_unit L) ltac:(destruct WF; lia) _ HC) by auto. auto.
  - intros v. split.
    + intros Hv. apply in_map_iff in Hv. destruct Hv as (e & <- & He). rewrite Forall_forall in HG. apply HG; exact He.
    + intros Hv. destruct (reach_near x v Hx Hv) as (y & c & d & Ec & Ed & N & E).
      apply neighbour_spec in N; auto. apply (Permutation_in _ (Permutation_sym HP)) in N. apply in_map_iff in N.
      destruct N as (e & Ee & He). destruct (HE e He) as (c' & d' & Ec' & Ed' & E1 & _). apply in_map_iff. exists e. split; [|exact He].
      rewrite E1. congruence.
  - intros e He. destruct (HE e He) as (c & d & _ & Ed & _). eapply coords_range; eauto.
Qed.

Lemma csorted_ext l m : csorted l -> csorted m -> (forall v, In v l <-> In v m) -> l = m.
Proof using.
  intros Hl Hm He.
  assert (ND : forall l, csorted l -> NoDup l).
  { clear. intros l H. induction H as [|a l H IH HF]; constructor; auto. intros Hin. rewrite Forall_forall in HF.
    specialize (HF a Hin). rewrite clt_irrefl in HF. discriminate. }
  apply (sorted_perm_eq (fun a b => clt a b = true)); auto.
  - intros x y _ _ H1 H2. apply clt_asym in H1. congruence.
  - apply NoDup_Permutation; auto.
Qed.

Lemma sortedGeo_same x x' g g' : sortedGeo x g -> sortedGeo x' g' -> basisSiteFromIndex L x = basisSiteFromIndex L x' ->
  map ce_c g = map ce_c g'.
Proof using.
  intros H H' E. apply csorted_ext; [apply H|apply H'|]. intros v. rewrite (sg_reach _ _ H), (sg_reach _ _ H'), E. tauto.
Qed.
End Uniform.
