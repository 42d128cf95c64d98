(** The order of the rows of a plain process, and the way the rows of a bucket process are written, do not matter for the chain of SChain.v. *)
From Coq Require Import Reals.
From Verif Require Import PBase SModel SGeo SBuild SPlain SStep SBucket SPossible PLattice PBuild PIdeal PStep PPyChain PPyChain2 TChain.
From Verif Require Export SPyChain2.
From Coq Require Import ZifyBool.
Open Scope string_scope.
Open Scope list_scope.
Open Scope Z_scope.

Definition likeRow (r r' : brow) : Prop :=
  br_c r = br_c r' /\ (forall s, SBucket.howMany s (br_before r) = SBucket.howMany s (br_before r')) /\ forall s, change (br_upd r) s = change (br_upd r') s.
Definition likeSpec (sp sp' : pspec) : Prop :=
  match sp, sp' with
  | Plain rows, Plain rows' => Permutation (map bare rows) (map bare rows')
  | Bucket rows, Bucket rows' => Forall2 likeRow rows rows'
  | _, _ => False
  end.
Definition likeC (pr pr' : cproc) : Prop := cp_rate pr = cp_rate pr' /\ cp_basis pr = cp_basis pr' /\ likeSpec (cp_spec pr) (cp_spec pr').
Lemma likeRow_refl r : likeRow r r. Proof. repeat split. Qed.
Lemma likeRow_sym r r' : likeRow r r' -> likeRow r' r. Proof. intros (A & B & C). split; [congruence|]. split; intros s; symmetry; auto. Qed.
(** plain rows as rows of numbers, from what matters of them *)
Definition bareRow (t : coord * string * string) : brow :=
  let '(c, b, a) := t in mkBRow c [b] (if String.eqb b a then [] else [(b, -1); (a, 1)]).
Lemma like_rows sp sp' : likeSpec sp sp' -> exists m, Permutation (numberRows sp) m /\ Forall2 likeRow m (numberRows sp').
Proof.
  destruct sp as [rows|rows], sp' as [rows'|rows']; cbn [likeSpec numberRows]; intros H; try contradiction.
  - exists (map numberRow rows'). assert (E : forall l, map numberRow l = map bareRow (map bare l)) by (intros l; rewrite map_map; apply map_ext; intros r; reflexivity). rewrite !E. split; [apply Permutation_map; exact H|]. rewrite <- E. induction (map numberRow rows') as [|r l IH]; constructor; [apply likeRow_refl|exact IH].
  - exists rows. split; [apply Permutation_refl|exact H].
Qed.
Lemma like_positions sp sp' : likeSpec sp sp' -> Permutation (positions sp) (positions sp').
Proof.
  destruct sp as [rows|rows], sp' as [rows'|rows']; cbn [likeSpec positions]; intros H; try contradiction.
  - exact (bare_c _ _ H).
  - assert (E : map br_c rows = map br_c rows') by (induction H as [|r r' l l' (A & _) F IH]; [reflexivity|]; cbn [map]; rewrite A, IH; reflexivity). rewrite E. apply Permutation_refl.
Qed.
Lemma numberRows_c sp : map br_c (numberRows sp) = positions sp.
Proof. destruct sp as [rows|rows]; cbn [numberRows positions]; [rewrite map_map|]; reflexivity. Qed.
Lemma like_In sp sp' r : likeSpec sp sp' -> In r (numberRows sp) -> exists r', In r' (numberRows sp') /\ likeRow r r'.
Proof.
  intros H Hr. destruct (like_rows _ _ H) as (m & P & F). apply (Permutation_in _ P) in Hr. clear P H. induction F as [|a b l l' Hab F IH]; [destruct Hr|]. destruct Hr as [<-|Hr]; [exists b; split; [left; reflexivity|exact Hab]|]. destruct (IH Hr) as (r' & I & K). exists r'. split; [right; exact I|exact K].
Qed.
Lemma like_In_back sp sp' r' : likeSpec sp sp' -> In r' (numberRows sp') -> exists r, In r (numberRows sp) /\ likeRow r r'.
Proof.
  intros H Hr. destruct (like_rows _ _ H) as (m & P & F). assert (X : exists r, In r m /\ likeRow r r'). { clear P H. induction F as [|a b l l' Hab F IH]; [destruct Hr|]. destruct Hr as [<-|Hr]; [exists a; split; [left; reflexivity|exact Hab]|]. destruct (IH Hr) as (r & I & K). exists r. split; [right; exact I|exact K]. }
  destruct X as (r & I & K). exists r. split; [exact (Permutation_in _ (Permutation_sym P) I)|exact K].
Qed.
Lemma Forall2_forallb {A B} (Q : A -> B -> Prop) (f : A -> bool) (g : B -> bool) l m : Forall2 Q l m -> (forall a b, Q a b -> f a = g b) -> forallb f l = forallb g m.
Proof. intros F H. induction F as [|a b l m Hab F IH]; [reflexivity|]. cbn [forallb]. rewrite (H _ _ Hab), IH. reflexivity. Qed.
Lemma Forall2_find {A B} (Q : A -> B -> Prop) (f : A -> bool) (g : B -> bool) l m : Forall2 Q l m -> (forall a b, Q a b -> f a = g b) ->
  match find f l, find g m with Some a, Some b => Q a b | None, None => True | _, _ => False end.
Proof. intros F H. induction F as [|a b l m Hab F IH]; [exact I|]. cbn [find]. rewrite (H _ _ Hab). destruct (g b); [exact Hab|exact IH]. Qed.
Lemma forallb_same {A} (f g : A -> bool) l : (forall a, f a = g a) -> forallb f l = forallb g l.
Proof. intros H. induction l as [|a l IH]; [reflexivity|]. cbn [forallb]. rewrite IH, H. reflexivity. Qed.
Lemma any_like r r' : likeRow r r' -> anyRow r = anyRow r'.
Proof. intros (_ & B & _). unfold anyRow. rewrite B. reflexivity. Qed.

Section Like.
Context (L : lattice) (WF : wf_lattice L) (basis : list coord) (names : list string).
(** two positions do not lie at the same site *)
Definition apartC (sp : pspec) : Prop := NoDup (positions sp) /\ forall x y c c', In c (positions sp) -> In c' (positions sp) -> there L basis x c y = true -> there L basis x c' y = true -> c = c'.
Lemma placed_apartC custom b sp : placed L basis custom b (positions sp) -> apartC sp.
Proof using WF.
  intros PL. split; [apply PL|]. intros x y c c' Hc Hc' H H'.
  set (pr := mkIP 0 0 (map (fun c => mkRow c "" "" None) (positions sp))). assert (E : map rw_c (ip_rows pr) = positions sp) by (cbn [ip_rows pr]; rewrite map_map; apply map_id).
  rewrite <- E in PL. pose proof (placed_apart L WF basis pr custom b PL) as AP.
  apply (AP x y (mkRow c "" "" None) (mkRow c' "" "" None)); cbn [ip_rows pr rw_c]; try assumption; apply in_map_iff; eexists; split; try reflexivity; assumption.
Qed.
Lemma can_like pr pr' x s : likeC pr pr' -> canHappen L basis names pr x s = canHappen L basis names pr' x s.
Proof using.
  intros (_ & EB & K). destruct (like_rows _ _ K) as (m & P & F). unfold canHappen, cp_rows. rewrite EB. f_equal. rewrite (forallb_perm _ _ _ P). eapply Forall2_forallb; [exact F|]. intros r r' Q. rewrite (any_like _ _ Q). destruct Q as (A & B & _). f_equal.
  rewrite A. clear - B. induction (sites L) as [|y l IH]; [reflexivity|]. cbn [existsb]. rewrite IH. f_equal. f_equal. apply forallb_same. intros t. rewrite B. reflexivity.
Qed.
Lemma happened_like pr pr' x s : likeC pr pr' -> apartC (cp_spec pr) -> happened L basis names pr x s = happened L basis names pr' x s.
Proof using.
  intros (_ & _ & K) [ND AP]. destruct (like_rows _ _ K) as (m & P & F). unfold happened, cp_rows. apply map_ext. intros [y ns]. cbn [fst snd].
  set (f := fun r => negb (anyRow r) && there L basis x (br_c r) y). rewrite (find_unique f _ _ P).
  - assert (FF : forall a b, likeRow a b -> f a = f b) by (intros a b Q; unfold f; rewrite (any_like _ _ Q); destruct Q as (A & _); rewrite A; reflexivity). pose proof (Forall2_find likeRow f f _ _ F FF) as Y. destruct (find f m) as [r|], (find f (numberRows (cp_spec pr'))) as [r'|]; try contradiction; [|reflexivity].
    destruct Y as (_ & _ & C). apply map_ext. intros [t n]. cbn [fst snd]. rewrite C. reflexivity.
  - intros a b Ha Hb Fa Fb. apply andb_true_iff in Fa, Fb. rewrite <- numberRows_c in ND, AP.
    assert (EC : br_c a = br_c b) by (apply (AP x y); [apply in_map; exact Ha|apply in_map; exact Hb|apply Fa|apply Fb]). apply In_zget in Ha, Hb. destruct Ha as [n Hn], Hb as [n' Hn'].
    assert (n = n') by (eapply (zget_NoDup_inj (map br_c (numberRows (cp_spec pr)))); [exact ND|rewrite zget_map, Hn; reflexivity|rewrite zget_map, Hn', EC; reflexivity]). subst n'. congruence.
Qed.
Definition likeChain2 (prs prs' : list cproc) : Prop := Forall2 likeC prs prs' /\ forall pr, In pr prs -> apartC (cp_spec pr).
Lemma event_like pr pr' x s : likeC pr pr' -> eventRate L basis names pr x s = eventRate L basis names pr' x s.
Proof using. intros H. unfold eventRate. rewrite (can_like pr pr' x s H). destruct H as (-> & _). reflexivity. Qed.
Lemma ratesOf_like pr pr' s : likeC pr pr' -> ratesOf L basis names pr s = ratesOf L basis names pr' s.
Proof using. intros H. unfold ratesOf. f_equal. apply map_ext. intros x. apply event_like. exact H. Qed.
Lemma allRates_like prs prs' s : likeChain2 prs prs' -> allRates L basis names prs s = allRates L basis names prs' s.
Proof using. intros [H _]. unfold allRates. f_equal. induction H as [|pr pr' prs prs' H F IH]; [reflexivity|]. cbn [map]. rewrite IH, (ratesOf_like pr pr' s H). reflexivity. Qed.
Lemma Forall2_to {A B} (P : A -> B -> Prop) l m : Forall2 P l m -> forall i a, zget l i = Some a -> exists b, zget m i = Some b /\ P a b.
Proof using.
  induction 1 as [|x y l m H F IH]; intros i a Hi; [rewrite zget_nil in Hi; discriminate|]. rewrite zget_cons in Hi. rewrite zget_cons. destruct (i =? 0); [injection Hi as <-; eauto|]. apply IH. exact Hi.
Qed.
Lemma chainStep_like prs prs' s e s' : likeChain2 prs prs' -> chainStep L basis names prs s e s' <-> chainStep L basis names prs' s e s'.
Proof using.
  intros [F A]. split; intros H; inversion H as [i pr x Ei Hx HP]; subst.
  - destruct (Forall2_to _ _ _ F _ _ Ei) as (pr' & Ei' & K). rewrite (happened_like pr pr' x s K (A pr (zget_In _ _ _ Ei))). rewrite (event_like pr pr' x s K) in HP. econstructor; eauto.
  - destruct (Forall2_at _ _ _ F _ _ Ei) as (pr' & Ei' & K). rewrite <- (happened_like pr' pr x s K (A pr' (zget_In _ _ _ Ei'))). rewrite <- (event_like pr' pr x s K) in HP. econstructor; eauto.
Qed.
Lemma chainHistory_like prs prs' es : likeChain2 prs prs' -> forall s t s' t', chainHistory L basis names prs s t es s' t' <-> chainHistory L basis names prs' s t es s' t'.
Proof using.
  intros K. induction es as [|[e v] es IH]; intros s t s' t'; split; intros H; inversion H; subst; try constructor.
  - econstructor; [apply (chainStep_like prs prs'); eassumption|assumption|]. rewrite <- (allRates_like prs prs' s K). apply IH. assumption.
  - econstructor; [apply (chainStep_like prs prs'); eassumption|assumption|]. rewrite (allRates_like prs prs' s K). apply IH. assumption.
Qed.
Lemma rateBetween_like prs prs' s s' : likeChain2 prs prs' -> rateBetween L basis names prs s s' = rateBetween L basis names prs' s s'.
Proof using.
  intros [F A]. unfold rateBetween. f_equal. induction F as [|pr pr' prs prs' H F IH]; [reflexivity|]. cbn [map]. rewrite IH by (intros q Hq; apply A; right; exact Hq). f_equal. f_equal. apply map_ext. intros x.
  rewrite (happened_like pr pr' x s H (A pr (or_introl eq_refl))), (event_like pr pr' x s H). reflexivity.
Qed.
Lemma comesTo_like prs prs' s0 s : likeChain2 prs prs' -> comesTo L basis names prs' s0 s -> comesTo L basis names prs s0 s.
Proof using.
  intros [F A] H. induction H as [|s i pr x H IH Ei Hx HC]; [constructor|]. destruct (Forall2_at _ _ _ F _ _ Ei) as (pr' & Ei' & K). rewrite <- (happened_like pr' pr x s K (A pr' (zget_In _ _ _ Ei'))). rewrite <- (can_like pr' pr x s K) in HC. econstructor; eauto.
Qed.
Lemma multipleOfRates_like prs prs' s N : likeChain2 prs prs' -> multipleOfRates L basis names prs s N -> multipleOfRates L basis names prs' s N.
Proof using.
  intros [F _] H pr' Hp' HT. apply In_zget in Hp'. destruct Hp' as [i Ei]. destruct (Forall2_at _ _ _ F _ _ Ei) as (pr & Ep & K). rewrite <- (ratesOf_like pr pr' s K) in HT |- *. apply H; [eapply zget_In; exact Ep|exact HT].
Qed.
Lemma describesTypes_like s rows rows' ys ds b a : Permutation (map bare rows) (map bare rows') -> describesTypes names s rows' ys ds b a -> describesTypes names s rows ys ds b a.
Proof using.
  intros P [D1 D2 D3 D4]. constructor; [exact D1|exact D2| |].
  - intros j d r Hd Hr Ec Hn. destruct (bare_In _ _ r P Hr) as (r' & Hr' & E). injection E as E1 E2 E3. rewrite <- E3. apply (D3 j d r' Hd Hr'); congruence.
  - intros j d Hd H. apply (D4 j d Hd). intros r' Hr' Ec. destruct (bare_In _ _ r' (Permutation_sym P) Hr') as (r & Hr & E). injection E as E1 E2 E3. rewrite <- E2, <- E3. apply (H r Hr). congruence.
Qed.
Lemma counts_ext f g l : (forall t, f t = g t) -> counts names f l -> counts names g l.
Proof using. intros E [A B]. split; [exact A|]. intros n t. rewrite <- E. apply B. Qed.
Lemma describesNumbers_like s rows rows' ys ds b a : Forall2 likeRow rows rows' -> describesNumbers names s rows' ys ds b a -> describesNumbers names s rows ys ds b a.
Proof using.
  intros F [D1 D2 D3 D4]. pose proof (like_In (Bucket rows) (Bucket rows')) as K1. pose proof (like_In_back (Bucket rows) (Bucket rows')) as K2. cbn [numberRows likeSpec] in K1, K2. constructor; [exact D1|exact D2| |].
  - intros j y d l r Hy Hd Hl Hr Ec. destruct (K1 r F Hr) as (r' & Hr' & (E1 & E2 & E3)). eapply counts_ext; [|eapply (D3 j y d l r'); eauto; congruence]. intros t. cbv beta. rewrite E3. reflexivity.
  - intros j d Hd H. apply (D4 j d Hd). intros r' Hr'. destruct (K2 r' F Hr') as (r & Hr & (E1 & _)). rewrite <- E1. apply H. exact Hr.
Qed.
Lemma star_howMany l : In "*" l <-> 0 < SBucket.howMany "*" l.
Proof using.
  unfold SBucket.howMany. split.
  - intros H. assert (X : In "*" (filter (String.eqb "*") l)) by (apply filter_In; split; [exact H|reflexivity]). destruct (filter (String.eqb "*") l) as [|a m]; [destruct X|]. rewrite zlen_cons. pose proof (zlen_nonneg m). lia.
  - intros H. destruct (filter (String.eqb "*") l) as [|a m] eqn:E; [change (zlen (@nil string)) with 0 in H; lia|]. assert (X : In a (filter (String.eqb "*") l)) by (rewrite E; left; reflexivity). apply filter_In in X. destruct X as [X1 X2]. apply String.eqb_eq in X2. subst a. exact X1.
Qed.
Lemma takes_like sp sp' : likeSpec sp sp' -> takesWhatItAsksFor sp -> takesWhatItAsksFor sp'.
Proof using.
  intros K T. pose proof (like_In_back sp sp') as KB. destruct sp as [rows|rows], sp' as [rows'|rows']; cbn [likeSpec takesWhatItAsksFor numberRows] in *; try contradiction; [exact I|]. intros r' Hr'. destruct (KB r' K Hr') as (r & Hr & (E1 & E2 & E3)). destruct (T r Hr) as [T1 T2]. split.
  - intros s. rewrite <- E2, <- E3. apply T1.
  - intros H s. rewrite <- E3. apply T2. apply star_howMany. rewrite E2. apply star_howMany. exact H.
Qed.
Lemma empties_like pt sp sp' : (forall t, In t names -> exists k, tfind pt t = Some k) -> likeSpec sp sp' -> leavesSomething names sp -> neverEmpties pt sp'.
Proof using.
  intros HN K T. pose proof (like_In_back sp sp') as KB. destruct sp as [rows|rows], sp' as [rows'|rows']; cbn [likeSpec leavesSomething neverEmpties numberRows] in *; try contradiction; [exact I|]. intros r' Hr' [s Hs]. destruct (KB r' K Hr') as (r & Hr & (E1 & E2 & E3)). destruct (T r Hr) as [T1 (s' & I & T2)]; [exists s; rewrite E3; exact Hs|]. split.
  - intros H. apply T1. apply star_howMany. rewrite E2. apply star_howMany. exact H.
  - destruct (HN s' I) as [k Ek]. exists s', k. split; [exact Ek|]. rewrite <- E2, <- E3. exact T2.
Qed.
Lemma placed_like custom b sp sp' : likeSpec sp sp' -> zget (positions sp') 0 = Some czero -> placed L basis custom b (positions sp) -> placed L basis custom b (positions sp').
Proof using.
  intros K F [P1 P2 P3]. pose proof (like_positions _ _ K) as PC. constructor; [exact F|exact (Permutation_NoDup PC P2)|]. intros c Hc. apply P3. exact (Permutation_in _ (Permutation_sym PC) Hc).
Qed.
End Like.

(** ** The furthest position *)
Lemma furthest_spec cs : 0 <= furthest cs /\ (forall c, In c cs -> cnorm2 c <= furthest cs) /\ (furthest cs = 0 \/ exists c, In c cs /\ cnorm2 c = furthest cs).
Proof.
  induction cs as [|c cs (I1 & I2 & I3)]; cbn [furthest fold_right]; [split; [lia|]; split; [intros c []|left; reflexivity]|]. fold (furthest cs). split; [lia|]. split; [intros c' [<-|H]; [lia|specialize (I2 _ H); lia]|].
  destruct (Z.max_spec (cnorm2 c) (furthest cs)) as [[_ ->]|[_ ->]].
  - destruct I3 as [->|(c' & H & E)]; [left; reflexivity|right; exists c'; split; [right; exact H|exact E]].
  - right. exists c. split; [left; reflexivity|reflexivity].
Qed.
Lemma furthest_is cs m : (forall c, In c cs -> cnorm2 c <= m) -> (exists c, In c cs /\ cnorm2 c = m) -> furthest cs = m.
Proof.
  intros H (c & Hc & E). destruct (furthest_spec cs) as (F1 & F2 & F3). specialize (F2 _ Hc). destruct F3 as [F3|(c' & Hc' & F3)]; [|specialize (H _ Hc'); lia]. assert (0 <= cnorm2 c) by (unfold cnorm2; nia). lia.
Qed.
Lemma furthest_perm cs cs' : Permutation cs cs' -> furthest cs = furthest cs'.
Proof. intros P. induction P; cbn [furthest fold_right]; fold (furthest); try lia; unfold furthest in *; lia. Qed.
