(** The order of the rows of a process does not matter for the chain; the way from the arguments to [chainInput]. *)
From Coq Require Import Reals.
From Verif Require Import PBase SModel SGeo SBuild SPlain SStep SBucket SPossible PLattice PBuild PTotal PTypes TTypes PPyProcess TPyProcess TPyBucket TPyLattice PIdeal PRegular PStep.
From Verif Require Export SPyChain.
From Coq Require Import ZifyBool.
Open Scope string_scope.
Open Scope list_scope.
Open Scope Z_scope.

(** ** The order of the rows *)
Definition bare (r : row) : coord * string * string := (rw_c r, rw_before r, rw_after r).
Definition likeProc (pr pr' : iproc) : Prop :=
  ip_rate pr = ip_rate pr' /\ ip_basis pr = ip_basis pr' /\ Permutation (map bare (ip_rows pr)) (map bare (ip_rows pr')).
Section Order.
Context (L : lattice) (WF : wf_lattice L) (basis : list coord).
Definition enabledB (x : Z) (s : state) (t : coord * string * string) : bool :=
  String.eqb (snd (fst t)) "*" || existsb (fun y => there L basis x (fst (fst t)) y && typeIs s y (snd (fst t))) (sites L).
Lemma forallb_perm {A} (f : A -> bool) l m : Permutation l m -> forallb f l = forallb f m.
Proof. intros P. apply eq_true_iff_eq. rewrite !forallb_forall. split; intros H x Hx; apply H; [apply (Permutation_in _ (Permutation_sym P))|apply (Permutation_in _ P)]; exact Hx. Qed.
Lemma enabled_like pr pr' x s : likeProc pr pr' -> enabled L basis pr x s = enabled L basis pr' x s.
Proof.
  intros (_ & EB & P). unfold enabled. rewrite EB. f_equal.
  assert (E : forall rows, forallb (fun r => wildRow r || existsb (fun y => there L basis x (rw_c r) y && typeIs s y (rw_before r)) (sites L)) rows = forallb (enabledB x s) (map bare rows)) by (intros rows; induction rows as [|r rows IH]; [reflexivity|]; cbn [map forallb]; rewrite IH; reflexivity).
  rewrite !E. apply forallb_perm. exact P.
Qed.
(** two positions of a process do not lie at the same site *)
Definition apart (pr : iproc) : Prop := forall x y r r', In r (ip_rows pr) -> In r' (ip_rows pr) -> there L basis x (rw_c r) y = true -> there L basis x (rw_c r') y = true -> rw_c r = rw_c r'.
Lemma around_window (p : bool) rep d c c' : 0 < rep * lt_unit L -> window1 p (rep * lt_unit L) c -> window1 p (rep * lt_unit L) c' -> around L p rep (d - c) = true -> around L p rep (d - c') = true -> c = c'.
Proof using.
  intros HP W W' H H'. apply around_spec in H; [|exact HP]. apply around_spec in H'; [|exact HP]. unfold sameMod, window1 in *. destruct p; [|lia]. specialize (W eq_refl). specialize (W' eq_refl). destruct H as [n ->], H' as [n' E].
  assert (n = n') by nia. subst n'. lia.
Qed.
Lemma placed_apart pr custom b : placed L basis custom b (map rw_c (ip_rows pr)) -> apart pr.
Proof using WF.
  intros PL x y r r' Hr Hr' H H'. destruct (pl_leads _ _ _ _ _ PL (rw_c r)) as (b1 & e1 & e1' & i & j & k & _ & _ & (_ & _ & _ & A1) & (_ & _ & _ & A2) & (_ & _ & _ & A3)); [apply in_map; exact Hr|].
  destruct (pl_leads _ _ _ _ _ PL (rw_c r')) as (b2 & e2 & e2' & i' & j' & k' & _ & _ & (_ & _ & _ & B1) & (_ & _ & _ & B2) & (_ & _ & _ & B3)); [apply in_map; exact Hr'|].
  unfold there in *. apply andb_true_iff in H, H'. destruct H as [H H3], H' as [H' H3']. apply andb_true_iff in H, H'. destruct H as [H1 H2], H' as [H1' H2']. destruct WF.
  apply coord_same; [eapply around_window with (p := lt_pa L) (rep := lt_ra L)|eapply around_window with (p := lt_pb L) (rep := lt_rb L)|eapply around_window with (p := lt_pc L) (rep := lt_rc L)]; eauto; nia.
Qed.
Lemma find_bare (f : coord * string * string -> bool) rows : option_map bare (find (fun r => f (bare r)) rows) = find f (map bare rows).
Proof using. induction rows as [|r rows IH]; [reflexivity|]. cbn [find map]. destruct (f (bare r)); [reflexivity|exact IH]. Qed.
Lemma find_unique {A} (f : A -> bool) l m : Permutation l m -> (forall a b, In a l -> In b l -> f a = true -> f b = true -> a = b) -> find f l = find f m.
Proof using.
  intros P U. destruct (find f l) as [a|] eqn:E1, (find f m) as [b|] eqn:E2; try reflexivity.
  - apply find_some in E1, E2. destruct E1 as [I1 F1], E2 as [I2 F2]. apply (Permutation_in _ (Permutation_sym P)) in I2. f_equal. apply U; assumption.
  - apply find_some in E1. destruct E1 as [I1 F1]. apply (Permutation_in _ P) in I1. pose proof (find_none _ _ E2 _ I1). congruence.
  - apply find_some in E2. destruct E2 as [I2 F2]. apply (Permutation_in _ (Permutation_sym P)) in I2. pose proof (find_none _ _ E1 _ I2). congruence.
Qed.
Lemma fire_like pr pr' x s : likeProc pr pr' -> apart pr -> NoDup (map rw_c (ip_rows pr)) -> fire L basis pr x s = fire L basis pr' x s.
Proof using.
  intros (_ & _ & P) AP ND. unfold fire. apply map_ext. intros [y t]. cbn [fst snd].
  set (f := fun b : coord * string * string => negb (String.eqb (snd (fst b)) "*") && there L basis x (fst (fst b)) y).
  assert (E : forall rows, match find (fun r => negb (wildRow r) && there L basis x (rw_c r) y) rows with Some r => rw_after r | None => t end = match find f (map bare rows) with Some b => snd b | None => t end).
  { intros rows. rewrite <- find_bare. change (fun r => f (bare r)) with (fun r => negb (wildRow r) && there L basis x (rw_c r) y). destruct (find _ rows); reflexivity. }
  rewrite !E. rewrite (find_unique f _ _ P); [reflexivity|].
  intros a b Ha Hb Fa Fb. apply in_map_iff in Ha, Hb. destruct Ha as (r & <- & Hr), Hb as (r' & <- & Hr'). unfold f, bare in Fa, Fb. cbn [fst snd] in Fa, Fb. apply andb_true_iff in Fa, Fb.
  pose proof (AP x y r r' Hr Hr' (proj2 Fa) (proj2 Fb)) as EC. apply In_zget in Hr, Hr'. destruct Hr as [n Hn], Hr' as [n' Hn'].
  assert (n = n'). { eapply (zget_NoDup_inj (map rw_c (ip_rows pr))); [exact ND|rewrite zget_map, Hn; reflexivity|rewrite zget_map, Hn', EC; reflexivity]. } subst n'. congruence.
Qed.
Definition likeChain (prs prs' : list iproc) : Prop := Forall2 likeProc prs prs' /\ forall pr, In pr prs -> apart pr /\ NoDup (map rw_c (ip_rows pr)).
Lemma propensity_like pr pr' x s : likeProc pr pr' -> propensity L basis pr x s = propensity L basis pr' x s.
Proof using. intros H. unfold propensity. rewrite (enabled_like pr pr' x s H). destruct H as (-> & _). reflexivity. Qed.
Lemma processTotal_like pr pr' s : likeProc pr pr' -> processTotal L basis pr s = processTotal L basis pr' s.
Proof using. intros H. unfold processTotal. f_equal. apply map_ext. intros x. apply propensity_like. exact H. Qed.
Lemma total_like prs prs' s : likeChain prs prs' -> total L basis prs s = total L basis prs' s.
Proof using. intros [H _]. unfold total. f_equal. induction H as [|pr pr' prs prs' H F IH]; [reflexivity|]. cbn [map]. rewrite IH, (processTotal_like pr pr' s H). reflexivity. Qed.
Lemma like_get prs prs' i pr : Forall2 likeProc prs prs' -> zget prs i = Some pr -> exists pr', zget prs' i = Some pr' /\ likeProc pr pr'.
Proof using.
  intros F. revert i. induction F as [|p p' prs prs' H F IH]; intros i E; [rewrite zget_nil in E; discriminate|]. rewrite zget_cons in *. destruct (i =? 0); [injection E as <-; eauto|exact (IH _ E)].
Qed.
Lemma like_back prs prs' i pr' : Forall2 likeProc prs prs' -> zget prs' i = Some pr' -> exists pr, zget prs i = Some pr /\ likeProc pr pr'.
Proof using.
  intros F. revert i. induction F as [|p p' prs prs' H F IH]; intros i E; [rewrite zget_nil in E; discriminate|]. rewrite zget_cons in *. destruct (i =? 0); [injection E as <-; eauto|exact (IH _ E)].
Qed.
Lemma step_like prs prs' s e s' : likeChain prs prs' -> idealStep L basis prs s e s' <-> idealStep L basis prs' s e s'.
Proof using.
  intros [F A]. split; intros H; inversion H as [i pr x Ei Hx HP]; subst.
  - destruct (like_get _ _ _ _ F Ei) as (pr' & Ei' & K). destruct (A pr (zget_In _ _ _ Ei)) as [A1 A2]. rewrite (fire_like pr pr' x s K A1 A2). rewrite (propensity_like pr pr' x s K) in HP. econstructor; eauto.
  - destruct (like_back _ _ _ _ F Ei) as (pr' & Ei' & K). destruct (A pr' (zget_In _ _ _ Ei')) as [A1 A2]. rewrite <- (fire_like pr' pr x s K A1 A2). rewrite <- (propensity_like pr' pr x s K) in HP. econstructor; eauto.
Qed.
Lemma history_like prs prs' es : likeChain prs prs' -> forall s t s' t', idealHistory L basis prs s t es s' t' <-> idealHistory L basis prs' s t es s' t'.
Proof using.
  intros K. induction es as [|[e v] es IH]; intros s t s' t'; split; intros H; inversion H; subst; try constructor.
  - econstructor; [apply (step_like prs prs'); eassumption|assumption|]. rewrite <- (total_like prs prs' s K). apply IH. assumption.
  - econstructor; [apply (step_like prs prs'); eassumption|assumption|]. rewrite (total_like prs prs' s K). apply IH. assumption.
Qed.
Lemma flow_like prs prs' s s' : likeChain prs prs' -> flow L basis prs s s' = flow L basis prs' s s'.
Proof using.
  intros [F A]. unfold flow. f_equal. induction F as [|pr pr' prs prs' H F IH]; [reflexivity|]. cbn [map]. rewrite IH by (intros q Hq; apply A; right; exact Hq). f_equal. f_equal. apply map_ext. intros x.
  destruct (A pr (or_introl eq_refl)) as [A1 A2]. rewrite (fire_like pr pr' x s H A1 A2), (propensity_like pr pr' x s H). reflexivity.
Qed.
End Order.
