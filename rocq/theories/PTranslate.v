(** Translations of a lattice and the Markov chain of SChain.v. *)
From Coq Require Import Reals.
From Verif Require Import PBase SModel SLattice SIdeal SChain SLaw STranslate PRow.
From Coq Require Import ZifyBool.
Open Scope list_scope.
Open Scope Z_scope.

Lemma forallb_ext_in {A} (f g : A -> bool) l : (forall x, In x l -> f x = g x) -> forallb f l = forallb g l.
Proof. induction l as [|a l IH]; intros H; [reflexivity|]. cbn [forallb]. rewrite (H a) by (left; reflexivity). rewrite IH; [reflexivity|]. intros x Hx. apply H. right. exact Hx. Qed.

Section Translate.
Context (L : lattice) (WF : wf_lattice L) (d : translation) (FT : fitting L d).
Notation nb := (lt_nb L). Notation ra := (lt_ra L). Notation rb := (lt_rb L). Notation rc := (lt_rc L).
Definition site (i j k b : Z) : Z := ((i * rb + j) * rc + k) * nb + b.
Lemma site_parts i j k b : 0 <= j < rb -> 0 <= k < rc -> 0 <= b < nb ->
  site i j k b mod nb = b /\ site i j k b / nb / (rb * rc) = i /\ site i j k b / nb / rc mod rb = j /\ site i j k b / nb mod rc = k.
Proof using WF.
  destruct WF. intros Hj Hk Hb. unfold site. assert (E : ((i * rb + j) * rc + k) * nb + b = b + ((i * rb + j) * rc + k) * nb) by lia. rewrite E.
  rewrite Z.mod_add, Z.div_add, (Z.mod_small b), (Z.div_small b) by lia. rewrite Z.add_0_l. split; [reflexivity|].
  assert (E2 : (i * rb + j) * rc + k = k + (i * rb + j) * rc) by lia.
  split; [|split].
  - rewrite Z.mul_comm with (n := rb), <- Z.div_div by lia. rewrite E2, Z.div_add, (Z.div_small k) by lia. rewrite Z.add_0_l. replace (i * rb + j) with (j + i * rb) by lia. rewrite Z.div_add, (Z.div_small j) by lia. lia.
  - rewrite E2, Z.div_add, (Z.div_small k) by lia. rewrite Z.add_0_l. replace (i * rb + j) with (j + i * rb) by lia. rewrite Z.mod_add, Z.mod_small by lia. reflexivity.
  - rewrite E2, Z.mod_add, Z.mod_small by lia. reflexivity.
Qed.
Lemma site_of x : 0 <= x < nsites L -> exists i j k b, x = site i j k b /\ 0 <= i < ra /\ 0 <= j < rb /\ 0 <= k < rc /\ 0 <= b < nb.
Proof using WF.
  destruct WF. unfold nsites, site. intros Hx. exists (x / nb / rc / rb), (x / nb / rc mod rb), (x / nb mod rc), (x mod nb).
  pose proof (Z.mod_pos_bound x nb wfl_nb). pose proof (Z.mod_pos_bound (x / nb) rc wfl_rc). pose proof (Z.mod_pos_bound (x / nb / rc) rb wfl_rb).
  pose proof (Z.div_mod x nb ltac:(lia)). pose proof (Z.div_mod (x / nb) rc ltac:(lia)). pose proof (Z.div_mod (x / nb / rc) rb ltac:(lia)).
  split; [nia|]. repeat split; try lia.
  - apply Z.div_pos; [|lia]. apply Z.div_pos; [|lia]. apply Z.div_pos; lia.
  - apply Z.div_lt_upper_bound; [lia|]. apply Z.div_lt_upper_bound; [lia|]. apply Z.div_lt_upper_bound; [lia|]. nia.
Qed.
Lemma site_range i j k b : 0 <= i < ra -> 0 <= j < rb -> 0 <= k < rc -> 0 <= b < nb -> 0 <= site i j k b < nsites L.
Proof using WF. destruct WF. unfold site, nsites. intros. assert (i * rb + j <= ra * rb - 1) by nia. assert ((i * rb + j) * rc + k <= ra * rb * rc - 1) by nia. assert (0 <= (i * rb + j) * rc + k) by nia. nia. Qed.
Lemma moved_site i j k b : 0 <= j < rb -> 0 <= k < rc -> 0 <= b < nb ->
  movedTo L d (site i j k b) = site ((i + tr_a d) mod ra) ((j + tr_b d) mod rb) ((k + tr_c d) mod rc) b.
Proof using WF. intros Hj Hk Hb. destruct (site_parts i j k b Hj Hk Hb) as (E1 & E2 & E3 & E4). unfold movedTo. cbv zeta. rewrite E1, E2, E3, E4. reflexivity. Qed.
Lemma place_site basis i j k b : 0 <= j < rb -> 0 <= k < rc -> 0 <= b < nb ->
  place L basis (site i j k b) = let p := nth (Z.to_nat b) basis czero in mkC (cx p + i * lt_unit L) (cy p + j * lt_unit L) (cz p + k * lt_unit L).
Proof using WF. intros Hj Hk Hb. destruct (site_parts i j k b Hj Hk Hb) as (E1 & E2 & E3 & E4). unfold place. cbv zeta. rewrite E1, E2, E3, E4. reflexivity. Qed.

Lemma In_sites x : In x (sites L) <-> 0 <= x < nsites L.
Proof using. unfold sites. rewrite In_zrange. lia. Qed.
Lemma moved_in x : In x (sites L) -> In (movedTo L d x) (sites L).
Proof using WF.
  rewrite !In_sites. intros Hx. destruct (site_of x Hx) as (i & j & k & b & -> & Hi & Hj & Hk & Hb). rewrite (moved_site i j k b Hj Hk Hb). destruct WF.
  apply site_range; try (apply Z.mod_pos_bound; lia); exact Hb.
Qed.
Lemma moved_basis x : In x (sites L) -> movedTo L d x mod nb = x mod nb.
Proof using WF.
  rewrite In_sites. intros Hx. destruct (site_of x Hx) as (i & j & k & b & -> & Hi & Hj & Hk & Hb). rewrite (moved_site i j k b Hj Hk Hb). destruct WF.
  destruct (site_parts i j k b Hj Hk Hb) as (-> & _). apply site_parts; try (apply Z.mod_pos_bound; lia); exact Hb.
Qed.
Lemma mod_shift_inj i i' a r : 0 < r -> 0 <= i < r -> 0 <= i' < r -> (i + a) mod r = (i' + a) mod r -> i = i'.
Proof using.
  intros Hr Hi Hi' E. assert (D : ((i + a) - (i' + a)) mod r = 0) by (rewrite Zminus_mod, E, Z.sub_diag; apply Z.mod_0_l; lia).
  replace (i + a - (i' + a)) with (i - i') in D by lia. apply Z.mod_divide in D; [|lia]. destruct D as [q Eq]. assert (q = 0) by nia. lia.
Qed.
Lemma moved_inj x y : In x (sites L) -> In y (sites L) -> movedTo L d x = movedTo L d y -> x = y.
Proof using WF.
  rewrite !In_sites. intros Hx Hy. destruct (site_of x Hx) as (i & j & k & b & -> & Hi & Hj & Hk & Hb), (site_of y Hy) as (i' & j' & k' & b' & -> & Hi' & Hj' & Hk' & Hb').
  rewrite (moved_site i j k b Hj Hk Hb), (moved_site i' j' k' b' Hj' Hk' Hb'). intros E. destruct WF.
  destruct (site_parts ((i + tr_a d) mod ra) ((j + tr_b d) mod rb) ((k + tr_c d) mod rc) b) as (A1 & A2 & A3 & A4); try (apply Z.mod_pos_bound; lia); [exact Hb|].
  destruct (site_parts ((i' + tr_a d) mod ra) ((j' + tr_b d) mod rb) ((k' + tr_c d) mod rc) b') as (B1 & B2 & B3 & B4); try (apply Z.mod_pos_bound; lia); [exact Hb'|].
  rewrite E in A1, A2, A3, A4. assert (b = b') by congruence. assert (i = i') by (apply (mod_shift_inj i i' (tr_a d) ra); auto; congruence).
  assert (j = j') by (apply (mod_shift_inj j j' (tr_b d) rb); auto; congruence). assert (k = k') by (apply (mod_shift_inj k k' (tr_c d) rc); auto; congruence). congruence.
Qed.
Lemma moved_perm : Permutation (map (movedTo L d) (sites L)) (sites L).
Proof using WF.
  apply NoDup_Permutation_bis.
  - apply NoDup_map_inj; [|apply NoDup_zrange]. intros a b Ha Hb. apply moved_inj; assumption.
  - rewrite map_length. lia.
  - intros y Hy. apply in_map_iff in Hy. destruct Hy as (x & <- & Hx). apply moved_in. exact Hx.
Qed.
Lemma moved_onto y : In y (sites L) -> exists x, In x (sites L) /\ movedTo L d x = y.
Proof using WF. intros Hy. apply (Permutation_in _ (Permutation_sym moved_perm)) in Hy. apply in_map_iff in Hy. destruct Hy as (x & E & Hx). eauto. Qed.

(** ** displacements *)
Lemma around_shift per r u w a i i' c : 0 < r -> (per = false -> a = 0) -> 0 <= i < r -> 0 <= i' < r ->
  around L per r (w + ((i' + a) mod r) * lt_unit L - (u + ((i + a) mod r) * lt_unit L) - c) = around L per r (w + i' * lt_unit L - (u + i * lt_unit L) - c).
Proof using WF.
  intros Hr Ha Hi Hi'. destruct WF. unfold around. destruct per.
  - pose proof (Z.div_mod (i + a) r ltac:(lia)) as E1. pose proof (Z.div_mod (i' + a) r ltac:(lia)) as E2. set (q := (i + a) / r) in *. set (q' := (i' + a) / r) in *.
    assert (E : w + (i' + a) mod r * lt_unit L - (u + (i + a) mod r * lt_unit L) - c = w + i' * lt_unit L - (u + i * lt_unit L) - c + (q - q') * (r * lt_unit L)) by nia.
    rewrite E, Z.mod_add by nia. reflexivity.
  - rewrite (Ha eq_refl), !Z.add_0_r, !Z.mod_small by lia. reflexivity.
Qed.
Lemma there_moved basis x y c : In x (sites L) -> In y (sites L) -> there L basis (movedTo L d x) c (movedTo L d y) = there L basis x c y.
Proof using WF FT.
  rewrite !In_sites. intros Hx Hy. destruct (site_of x Hx) as (i & j & k & b & -> & Hi & Hj & Hk & Hb), (site_of y Hy) as (i' & j' & k' & b' & -> & Hi' & Hj' & Hk' & Hb').
  rewrite (moved_site i j k b Hj Hk Hb), (moved_site i' j' k' b' Hj' Hk' Hb'). destruct FT as (F1 & F2 & F3). pose proof WF as [W1 W2 W3 W4 W5].
  unfold there. rewrite (place_site basis i j k b Hj Hk Hb), (place_site basis i' j' k' b' Hj' Hk' Hb').
  rewrite (place_site basis ((i + tr_a d) mod ra)) by (try (apply Z.mod_pos_bound; lia); exact Hb). rewrite (place_site basis ((i' + tr_a d) mod ra)) by (try (apply Z.mod_pos_bound; lia); exact Hb').
  cbv zeta. cbn [cx cy cz]. rewrite !around_shift by (auto; lia). reflexivity.
Qed.

(** ** the chain *)
Context (basis : list coord) (names : list string).
Lemma number_moved s s' y t : translated L d s s' -> In y (sites L) -> numberAt names s' (movedTo L d y) t = numberAt names s y t.
Proof using. intros (_ & _ & T) Hy. unfold numberAt. rewrite (T y Hy). reflexivity. Qed.
Lemma exists_moved (f g : Z -> bool) : (forall y, In y (sites L) -> f (movedTo L d y) = g y) -> existsb f (sites L) = existsb g (sites L).
Proof using WF.
  intros H. destruct (existsb g (sites L)) eqn:E.
  - apply existsb_exists in E. destruct E as (y & Hy & Gy). apply existsb_exists. exists (movedTo L d y). split; [apply moved_in; exact Hy|]. rewrite (H y Hy). exact Gy.
  - destruct (existsb f (sites L)) eqn:E'; [|reflexivity]. apply existsb_exists in E'. destruct E' as (y & Hy & Fy). destruct (moved_onto y Hy) as (x & Hx & <-). rewrite (H x Hx) in Fy.
    assert (existsb g (sites L) = true) by (apply existsb_exists; eauto). congruence.
Qed.
Lemma sum_moved (f g : Z -> Z) : (forall y, In y (sites L) -> f (movedTo L d y) = g y) -> zsum (map f (sites L)) = zsum (map g (sites L)).
Proof using WF.
  intros H. rewrite <- (zsum_perm _ _ (Permutation_map f moved_perm)), map_map. f_equal. apply map_ext_in. exact H.
Qed.
Lemma can_moved pr s s' x : translated L d s s' -> In x (sites L) -> canHappen L basis names pr (movedTo L d x) s' = canHappen L basis names pr x s.
Proof using WF FT.
  intros T Hx. unfold canHappen. rewrite (moved_basis x Hx). f_equal. apply forallb_ext_in. intros r Hr. f_equal.
  apply exists_moved. intros y Hy. rewrite (there_moved basis x y _ Hx Hy). f_equal. apply forallb_ext_in. intros t Ht. rewrite (number_moved s s' y t T Hy). reflexivity.
Qed.
Lemma happened_get pr x s y : zlen s = nsites L -> zget (happened L basis names pr x s) y =
  option_map (fun n => match find (fun r => negb (anyRow r) && there L basis x (br_c r) y) (cp_rows pr) with
    | Some r => map (fun tn => snd tn + change (br_upd r) (fst tn)) (combine names n) | None => n end) (zget s y).
Proof using.
  intros HL. unfold happened. rewrite zget_map. destruct (zget s y) as [n|] eqn:E.
  - assert (Hy : 0 <= y < nsites L) by (rewrite <- HL; eapply zget_range; eauto).
    rewrite (proj2 (PRow.combine_get (sites L) s y y n)); [reflexivity|]. split; [|exact E]. unfold sites. rewrite zget_zrange by lia. try (f_equal; lia).
  - destruct (zget (combine (sites L) s) y) as [[a n]|] eqn:E'; [|reflexivity]. apply PRow.combine_get in E'. destruct E'. congruence.
Qed.
Lemma happened_len pr x s : zlen s = nsites L -> zlen (happened L basis names pr x s) = nsites L.
Proof using.
  intros HL. unfold happened. rewrite zlen_map. unfold zlen. rewrite combine_length. unfold sites. pose proof (zlen_zrange 0 (nsites L - 1)) as E. pose proof (zlen_nonneg s). unfold zlen in *. lia.
Qed.
Lemma happened_moved pr s s' x : translated L d s s' -> In x (sites L) -> translated L d (happened L basis names pr x s) (happened L basis names pr (movedTo L d x) s').
Proof using WF FT.
  intros T Hx. pose proof T as (L1 & L2 & T3). split; [apply happened_len; exact L1|]. split; [apply happened_len; exact L2|]. intros y Hy. rewrite !happened_get by assumption. rewrite (T3 y Hy).
  destruct (zget s y) as [n|]; [|reflexivity]. cbn [option_map]. f_equal.
  assert (E : find (fun r => negb (anyRow r) && there L basis (movedTo L d x) (br_c r) (movedTo L d y)) (cp_rows pr) = find (fun r => negb (anyRow r) && there L basis x (br_c r) y) (cp_rows pr)).
  { induction (cp_rows pr) as [|r rows IH]; [reflexivity|]. cbn [find]. rewrite (there_moved basis x y _ Hx Hy), IH. reflexivity. }
  rewrite E. reflexivity.
Qed.
Context (prs : list cproc) (SE : sameEverywhere L d prs).
Lemma event_moved pr s s' x : In pr prs -> translated L d s s' -> In x (sites L) -> eventRate L basis names pr (movedTo L d x) s' = eventRate L basis names pr x s.
Proof using WF FT SE. intros Hp T Hx. unfold eventRate. rewrite (can_moved pr s s' x T Hx), (SE pr x s s' Hp Hx T). reflexivity. Qed.
Lemma rates_moved s s' : translated L d s s' -> allRates L basis names prs s' = allRates L basis names prs s.
Proof using WF FT SE.
  intros T. unfold allRates. f_equal. apply map_ext_in. intros pr Hp. unfold ratesOf. apply sum_moved. intros y Hy. apply event_moved; assumption.
Qed.
Lemma law_moved es : forall s s', translated L d s s' -> properEvents L es -> pathLaw L basis names prs s' (movedEvents L d es) = pathLaw L basis names prs s es.
Proof using WF FT SE.
  induction es as [|[[i x] w] es IH]; intros s s' T PE; [reflexivity|]. inversion PE as [|? ? [Hx _] PE']; subst. cbn [snd fst] in Hx. cbn [movedEvents map fst snd pathLaw].
  destruct (zget prs i) as [pr|] eqn:Ei; [|reflexivity]. rewrite (rates_moved s s' T), (event_moved pr s s' x (zget_In _ _ _ Ei) T Hx).
  f_equal. apply (IH (happened L basis names pr x s)); [apply happened_moved; assumption|exact PE'].
Qed.
Lemma proper_moved es : properEvents L es -> properEvents L (movedEvents L d es).
Proof using WF.
  intros H. unfold properEvents, movedEvents in *. rewrite Forall_forall in *. intros e He. apply in_map_iff in He. destruct He as (e' & <- & He'). destruct (H e' He') as [H1 H2]. cbn [fst snd]. split; [apply moved_in; exact H1|exact H2].
Qed.
End Translate.
