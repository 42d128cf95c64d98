(** Lemmas about the utilities of Base.v. *)
From Verif Require Import Base.
From Coq Require Import Sorted.
Open Scope Z_scope.

Lemma obind_Some {A B} (x : option A) (f : A -> option B) b :
  obind x f = Some b <-> exists a, x = Some a /\ f a = Some b.
Proof.
  destruct x; simpl; split.
  - intros H; eexists; split; [reflexivity|exact H].
  - intros [a' [E H]]; inversion E; subst; exact H.
  - discriminate.
  - intros [a' [E H]]; discriminate.
Qed.

(** destruct a successful bind in hypothesis H *)
Tactic Notation "ob" hyp(H) "as" ident(x) ident(E) :=
  apply obind_Some in H; destruct H as [x [E H]].

(** ** lengths and access *)
Lemma zlen_nonneg {A} (l : list A) : 0 <= zlen l. Proof. unfold zlen; lia. Qed.
#[global] Hint Resolve zlen_nonneg : core.
Lemma zlen_nil {A} : zlen (@nil A) = 0. Proof. reflexivity. Qed.
Lemma zlen_cons {A} (a : A) l : zlen (a :: l) = zlen l + 1.
Proof. unfold zlen; simpl length; lia. Qed.
Lemma zlen_app {A} (l m : list A) : zlen (l ++ m) = zlen l + zlen m.
Proof. unfold zlen; rewrite app_length; lia. Qed.
Lemma zlen_map {A B} (f : A -> B) l : zlen (map f l) = zlen l.
Proof. unfold zlen; rewrite map_length; reflexivity. Qed.
Lemma zlen_repeat {A} (a : A) n : zlen (repeat a n) = Z.of_nat n.
Proof. unfold zlen; rewrite repeat_length; reflexivity. Qed.
Lemma zlen_perm {A} (l m : list A) : Permutation l m -> zlen l = zlen m.
Proof. intros H; unfold zlen; rewrite (Permutation_length H); reflexivity. Qed.
Lemma zlen_0 {A} (l : list A) : zlen l = 0 -> l = [].
Proof. destruct l; [auto|]; rewrite zlen_cons; pose proof (zlen_nonneg l); lia. Qed.
Lemma to_nat_zlen {A} (l : list A) : Z.to_nat (zlen l) = length l.
Proof. unfold zlen; lia. Qed.

Lemma zget_nth {A} (l : list A) i : 0 <= i -> zget l i = nth_error l (Z.to_nat i).
Proof. intros H; unfold zget. destruct (Z.ltb_spec i 0); [lia|reflexivity]. Qed.
Lemma zget_neg {A} (l : list A) i : i < 0 -> zget l i = None.
Proof. intros H; unfold zget. destruct (Z.ltb_spec i 0); [reflexivity|lia]. Qed.
Lemma zget_of_nat {A} (l : list A) n : zget l (Z.of_nat n) = nth_error l n.
Proof. rewrite zget_nth by lia. rewrite Nat2Z.id; reflexivity. Qed.
Lemma zget_nil {A} i : zget (@nil A) i = None.
Proof. unfold zget; destruct (i <? 0); [reflexivity|]; destruct (Z.to_nat i); reflexivity. Qed.
Lemma zget_0 {A} (a : A) l : zget (a :: l) 0 = Some a. Proof. reflexivity. Qed.
Lemma zget_S {A} (a : A) l i : 0 <= i -> zget (a :: l) (i + 1) = zget l i.
Proof.
  intros H. rewrite !zget_nth by lia. replace (Z.to_nat (i + 1)) with (S (Z.to_nat i)) by lia. reflexivity.
Qed.
Lemma zget_cons {A} (a : A) l i : zget (a :: l) i = if i =? 0 then Some a else zget l (i - 1).
Proof.
  destruct (Z.eqb_spec i 0); [subst; reflexivity|].
  destruct (Z_lt_dec i 0).
  - rewrite !zget_neg by lia; reflexivity.
  - replace i with ((i - 1) + 1) at 1 by lia. apply zget_S; lia.
Qed.
Lemma zget_range {A} (l : list A) i a : zget l i = Some a -> 0 <= i < zlen l.
Proof.
  unfold zget, zlen. destruct (Z.ltb_spec i 0); [discriminate|].
  intros E. assert (Z.to_nat i < length l)%nat; [|lia].
  apply nth_error_Some; congruence.
Qed.
Lemma zget_lt {A} (l : list A) i : 0 <= i < zlen l -> exists a, zget l i = Some a.
Proof.
  intros H. rewrite zget_nth by lia.
  destruct (nth_error l (Z.to_nat i)) eqn:E; [eauto|].
  apply nth_error_None in E. unfold zlen in H; lia.
Qed.
Lemma zget_None {A} (l : list A) i : zget l i = None <-> (i < 0 \/ zlen l <= i).
Proof.
  split.
  - intros E. destruct (Z_lt_dec i 0); [auto|]. destruct (Z_lt_dec i (zlen l)); [|lia].
    destruct (zget_lt l i) as [a Ea]; [lia|congruence].
  - intros H. destruct (zget l i) eqn:E; [|reflexivity].
    apply zget_range in E; lia.
Qed.
Lemma zget_In {A} (l : list A) i a : zget l i = Some a -> In a l.
Proof.
  unfold zget. destruct (i <? 0); [discriminate|]. apply nth_error_In.
Qed.
Lemma In_zget {A} (l : list A) a : In a l -> exists i, zget l i = Some a.
Proof.
  intros H. apply In_nth_error in H. destruct H as [n E].
  exists (Z.of_nat n). rewrite zget_of_nat; exact E.
Qed.
Lemma zget_map {A B} (f : A -> B) l i : zget (map f l) i = option_map f (zget l i).
Proof.
  unfold zget. destruct (i <? 0); [reflexivity|]. apply nth_error_map.
Qed.
Lemma zget_app_l {A} (l m : list A) i : i < zlen l -> zget (l ++ m) i = zget l i.
Proof.
  intros H. destruct (Z_lt_dec i 0); [rewrite !zget_neg by lia; reflexivity|].
  rewrite !zget_nth by lia. apply nth_error_app1. unfold zlen in H; lia.
Qed.
Lemma zget_app_r {A} (l m : list A) i : zlen l <= i -> zget (l ++ m) i = zget m (i - zlen l).
Proof.
  intros H. assert (0 <= i) by (unfold zlen in H; lia).
  rewrite !zget_nth by lia. rewrite nth_error_app2 by (unfold zlen in H; lia).
  f_equal. unfold zlen in *; lia.
Qed.
Lemma zget_repeat {A} (a : A) n i : 0 <= i < Z.of_nat n -> zget (repeat a n) i = Some a.
Proof.
  intros H. destruct (zget_lt (repeat a n) i) as [b E]; [rewrite zlen_repeat; lia|].
  rewrite E. apply zget_In in E. apply repeat_spec in E. congruence.
Qed.
Lemma zget_ext {A} (l m : list A) : (forall i, zget l i = zget m i) -> l = m.
Proof.
  revert m. induction l as [|a l IH]; intros [|b m] H.
  - reflexivity.
  - specialize (H 0). discriminate.
  - specialize (H 0). discriminate.
  - f_equal.
    + specialize (H 0). rewrite !zget_0 in H. congruence.
    + apply IH. intros i. destruct (Z_lt_dec i 0); [rewrite !zget_neg by lia; reflexivity|].
      specialize (H (i + 1)). rewrite !zget_S in H by lia. exact H.
Qed.
Lemma nth_error_NoDup_inj {A} (l : list A) n m a :
  NoDup l -> nth_error l n = Some a -> nth_error l m = Some a -> n = m.
Proof.
  intros ND E1 E2. eapply NoDup_nth_error; [exact ND| |congruence].
  apply nth_error_Some; congruence.
Qed.
Lemma zget_NoDup_inj {A} (l : list A) i j a :
  NoDup l -> zget l i = Some a -> zget l j = Some a -> i = j.
Proof.
  intros ND E1 E2.
  pose proof (zget_range _ _ _ E1). pose proof (zget_range _ _ _ E2).
  rewrite zget_nth in E1, E2 by lia.
  pose proof (nth_error_NoDup_inj _ _ _ _ ND E1 E2). lia.
Qed.

(** ** updates *)
Lemma upd_nat_length {A} (l : list A) n v : length (upd_nat l n v) = length l.
Proof. revert n; induction l; intros [|n]; simpl; try rewrite IHl; reflexivity. Qed.
Lemma upd_nat_same {A} (l : list A) n v : (n < length l)%nat -> nth_error (upd_nat l n v) n = Some v.
Proof. revert n; induction l; intros [|n] H; simpl in *; try lia; [reflexivity|apply IHl; lia]. Qed.
Lemma upd_nat_other {A} (l : list A) n m v : n <> m -> nth_error (upd_nat l n v) m = nth_error l m.
Proof.
  revert n m; induction l; intros [|n] [|m] H; simpl in *; try congruence; try reflexivity.
  apply IHl; congruence.
Qed.
Lemma zset_Some {A} (l : list A) i v l' :
  zset l i v = Some l' ->
  0 <= i < zlen l /\ zlen l' = zlen l /\ zget l' i = Some v /\ (forall j, j <> i -> zget l' j = zget l j).
Proof.
  unfold zset. destruct (Z.leb_spec 0 i); [|discriminate]. destruct (Z.ltb_spec i (zlen l)); [|discriminate].
  simpl. intros E; inversion E; subst; clear E. repeat split; auto.
  - unfold zlen; rewrite upd_nat_length; reflexivity.
  - rewrite zget_nth by lia. apply upd_nat_same. unfold zlen in *; lia.
  - intros j Hj. unfold zget. destruct (Z.ltb_spec j 0); [reflexivity|].
    apply upd_nat_other. lia.
Qed.
Lemma zset_lt {A} (l : list A) i v : 0 <= i < zlen l -> exists l', zset l i v = Some l'.
Proof.
  intros H. unfold zset. destruct (Z.leb_spec 0 i); [|lia]. destruct (Z.ltb_spec i (zlen l)); [|lia].
  simpl; eauto.
Qed.
Lemma zset_get {A} (l : list A) i v l' j :
  zset l i v = Some l' -> zget l' j = if j =? i then Some v else zget l j.
Proof.
  intros H. apply zset_Some in H. destruct H as (_ & _ & H1 & H2).
  destruct (Z.eqb_spec j i); [subst; exact H1|apply H2; exact n].
Qed.
Lemma zset_len {A} (l : list A) i v l' : zset l i v = Some l' -> zlen l' = zlen l.
Proof. intros H; apply zset_Some in H; tauto. Qed.
Lemma zset_length {A} (l : list A) i v l' : zset l i v = Some l' -> length l' = length l.
Proof. intros H; apply zset_len in H; unfold zlen in H; lia. Qed.
Lemma upd_nat_split {A} (l1 l2 : list A) a v : upd_nat (l1 ++ a :: l2) (length l1) v = l1 ++ v :: l2.
Proof. induction l1; simpl; congruence. Qed.
Lemma zget_split {A} (l : list A) i a : zget l i = Some a ->
  exists l1 l2, l = l1 ++ a :: l2 /\ zlen l1 = i.
Proof.
  intros H. pose proof (zget_range _ _ _ H). rewrite zget_nth in H by lia.
  apply nth_error_split in H. destruct H as (l1 & l2 & E & Hl).
  exists l1, l2; split; [exact E|]. unfold zlen; lia.
Qed.
Lemma zset_split {A} (l1 l2 : list A) a v : zset (l1 ++ a :: l2) (zlen l1) v = Some (l1 ++ v :: l2).
Proof.
  unfold zset. rewrite zlen_app, zlen_cons. pose proof (zlen_nonneg l1). pose proof (zlen_nonneg l2).
  destruct (Z.leb_spec 0 (zlen l1)); [|lia]. destruct (Z.ltb_spec (zlen l1) (zlen l1 + (zlen l2 + 1))); [|lia].
  simpl. unfold zlen. rewrite Nat2Z.id. rewrite upd_nat_split. reflexivity.
Qed.

(** ** ranges *)
Lemma zseq_length lo n : length (zseq lo n) = n.
Proof. revert lo; induction n; simpl; intros; [reflexivity|rewrite IHn; reflexivity]. Qed.
Lemma In_zseq i lo n : In i (zseq lo n) <-> lo <= i < lo + Z.of_nat n.
Proof.
  revert lo; induction n; intros lo; simpl zseq; simpl In.
  - lia.
  - rewrite IHn. lia.
Qed.
Lemma NoDup_zseq lo n : NoDup (zseq lo n).
Proof.
  revert lo; induction n; intros lo; simpl; constructor; auto.
  rewrite In_zseq; lia.
Qed.
Lemma nth_error_zseq lo n k : (k < n)%nat -> nth_error (zseq lo n) k = Some (lo + Z.of_nat k).
Proof.
  revert lo k; induction n; intros lo k H; [lia|]. destruct k as [|k]; simpl zseq; simpl nth_error.
  - f_equal; lia.
  - rewrite IHn by lia. f_equal; lia.
Qed.
Lemma In_zrange i lo hi : In i (zrange lo hi) <-> lo <= i <= hi.
Proof. unfold zrange. rewrite In_zseq. lia. Qed.
Lemma NoDup_zrange lo hi : NoDup (zrange lo hi).
Proof. apply NoDup_zseq. Qed.
Lemma zlen_zrange lo hi : zlen (zrange lo hi) = Z.max 0 (hi - lo + 1).
Proof. unfold zlen, zrange. rewrite zseq_length. lia. Qed.
Lemma zget_zrange lo hi k : 0 <= k <= hi - lo -> zget (zrange lo hi) k = Some (lo + k).
Proof.
  intros H. rewrite zget_nth by lia. unfold zrange. rewrite nth_error_zseq by lia. f_equal; lia.
Qed.
Lemma zrange_empty lo hi : hi < lo -> zrange lo hi = [].
Proof. intros H. unfold zrange. replace (Z.to_nat (hi - lo + 1)) with O by lia. reflexivity. Qed.
Lemma zrange_cons lo hi : lo <= hi -> zrange lo hi = lo :: zrange (lo + 1) hi.
Proof.
  intros H. unfold zrange. replace (Z.to_nat (hi - lo + 1)) with (S (Z.to_nat (hi - (lo + 1) + 1))) by lia.
  reflexivity.
Qed.
Lemma zseq_S lo n : zseq lo (S n) = zseq lo n ++ [lo + Z.of_nat n].
Proof.
  revert lo; induction n; intros lo.
  - simpl. f_equal; lia.
  - change (zseq lo (S (S n))) with (lo :: zseq (lo + 1) (S n)). rewrite IHn. simpl zseq.
    rewrite <- app_comm_cons. do 3 f_equal. lia.
Qed.
Lemma zrange_snoc lo hi : lo <= hi -> zrange lo hi = zrange lo (hi - 1) ++ [hi].
Proof.
  intros H. unfold zrange. replace (Z.to_nat (hi - lo + 1)) with (S (Z.to_nat (hi - 1 - lo + 1))) by lia.
  rewrite zseq_S. do 2 f_equal. lia.
Qed.
Lemma zseq_shift lo n d : zseq (lo + d) n = map (fun i => i + d) (zseq lo n).
Proof.
  revert lo; induction n; intros lo; simpl; [reflexivity|]. f_equal.
  rewrite <- IHn. f_equal; lia.
Qed.
Lemma zrange_shift lo hi d : zrange (lo + d) (hi + d) = map (fun i => i + d) (zrange lo hi).
Proof. unfold zrange. rewrite <- zseq_shift. f_equal; lia. Qed.
Lemma zseq_app lo n m : zseq lo (n + m) = zseq lo n ++ zseq (lo + Z.of_nat n) m.
Proof.
  revert lo; induction n; intros lo; simpl.
  - f_equal; lia.
  - f_equal. rewrite IHn. do 2 f_equal. lia.
Qed.

(** ** omap and ofold *)
Lemma omap_Forall2 {A B} (f : A -> option B) l r :
  omap f l = Some r <-> Forall2 (fun a b => f a = Some b) l r.
Proof.
  revert r; induction l as [|a l IH]; intros r; simpl; split; intros H.
  - inversion H; constructor.
  - inversion H; reflexivity.
  - ob H as b E. ob H as bs Es. inversion H; subst. constructor; [exact E|]. apply IH; exact Es.
  - inversion H; subst. rewrite H2. simpl. apply IH in H4. rewrite H4. reflexivity.
Qed.
Lemma omap_length {A B} (f : A -> option B) l r : omap f l = Some r -> length r = length l.
Proof. intros H; apply omap_Forall2 in H. induction H; simpl; congruence. Qed.
Lemma omap_zlen {A B} (f : A -> option B) l r : omap f l = Some r -> zlen r = zlen l.
Proof. intros H; unfold zlen; rewrite (omap_length _ _ _ H); reflexivity. Qed.
Lemma omap_app {A B} (f : A -> option B) l m :
  omap f (l ++ m) = (a <- omap f l ;; b <- omap f m ;; Some (a ++ b)).
Proof.
  induction l as [|a l IH]; simpl.
  - destruct (omap f m); reflexivity.
  - destruct (f a); simpl; [|reflexivity]. rewrite IH. destruct (omap f l); simpl; [|reflexivity].
    destruct (omap f m); reflexivity.
Qed.
Lemma omap_ext {A B} (f g : A -> option B) l : (forall a, In a l -> f a = g a) -> omap f l = omap g l.
Proof.
  induction l as [|a l IH]; simpl; intros H; [reflexivity|].
  rewrite (H a) by auto. rewrite IH by auto. reflexivity.
Qed.
Lemma omap_total {A B} (f : A -> option B) l :
  (forall a, In a l -> exists b, f a = Some b) -> exists r, omap f l = Some r.
Proof.
  induction l as [|a l IH]; simpl; intros H; [eauto|].
  destruct (H a) as [b E]; [auto|]. destruct IH as [r Er]; [auto|]. rewrite E, Er. simpl; eauto.
Qed.
Lemma omap_Some_map {A B} (f : A -> B) l : omap (fun a => Some (f a)) l = Some (map f l).
Proof. induction l; simpl; [reflexivity|]. rewrite IHl. reflexivity. Qed.
Lemma omap_map {A B C} (f : B -> option C) (g : A -> B) l : omap f (map g l) = omap (fun a => f (g a)) l.
Proof. induction l; simpl; [reflexivity|]. rewrite IHl. reflexivity. Qed.
Lemma omap_zget {A B} (f : A -> option B) l r i :
  omap f l = Some r -> zget r i = (a <- zget l i ;; f a).
Proof.
  intros H. apply omap_Forall2 in H. revert i; induction H; intros i.
  - rewrite !zget_nil; reflexivity.
  - rewrite !zget_cons. destruct (i =? 0); [simpl; congruence|]. apply IHForall2.
Qed.
Lemma omap_In {A B} (f : A -> option B) l r b :
  omap f l = Some r -> In b r -> exists a, In a l /\ f a = Some b.
Proof.
  intros H. apply omap_Forall2 in H. induction H; simpl; intros Hin; [tauto|].
  destruct Hin as [->|Hin]; [eauto|]. destruct (IHForall2 Hin) as (a & Ha & E); eauto.
Qed.
Lemma omap_In_l {A B} (f : A -> option B) l r a :
  omap f l = Some r -> In a l -> exists b, In b r /\ f a = Some b.
Proof.
  intros H. apply omap_Forall2 in H. induction H; simpl; intros Hin; [tauto|].
  destruct Hin as [->|Hin]; [eauto|]. destruct (IHForall2 Hin) as (b & Hb & E); eauto.
Qed.
Lemma ofold_app {A S} (f : S -> A -> option S) l m s :
  ofold f (l ++ m) s = (s' <- ofold f l s ;; ofold f m s').
Proof.
  revert s; induction l as [|a l IH]; intros s; simpl; [reflexivity|].
  destruct (f s a); simpl; [apply IH|reflexivity].
Qed.
Lemma ofold_inv {A S} (P : S -> Prop) (f : S -> A -> option S) l s s' :
  (forall s a s', In a l -> P s -> f s a = Some s' -> P s') ->
  P s -> ofold f l s = Some s' -> P s'.
Proof.
  revert s; induction l as [|a l IH]; intros s Hf Hs; simpl; intros H.
  - inversion H; subst; exact Hs.
  - ob H as s1 E. eapply IH; [| |exact H].
    + intros; eapply Hf; eauto. right; auto.
    + eapply Hf; eauto. left; auto.
Qed.
Lemma ofold_total {A S} (P : S -> Prop) (f : S -> A -> option S) l s :
  (forall s a, In a l -> P s -> exists s', f s a = Some s' /\ P s') ->
  P s -> exists s', ofold f l s = Some s' /\ P s'.
Proof.
  revert s; induction l as [|a l IH]; intros s Hf Hs; simpl.
  - eauto.
  - destruct (Hf s a) as (s1 & E & H1); [left; auto|exact Hs|]. rewrite E; simpl.
    apply IH; [|exact H1]. intros; apply Hf; auto. right; auto.
Qed.

(** ** sums, membership *)
Lemma zsum_cons a l : zsum (a :: l) = a + zsum l. Proof. reflexivity. Qed.
Lemma zsum_app l m : zsum (l ++ m) = zsum l + zsum m.
Proof. induction l; simpl; [reflexivity|]. unfold zsum in *; simpl in *. lia. Qed.
Lemma zsum_perm l m : Permutation l m -> zsum l = zsum m.
Proof. induction 1; unfold zsum in *; simpl in *; lia. Qed.
Lemma zsum_nonneg l : (forall a, In a l -> 0 <= a) -> 0 <= zsum l.
Proof.
  induction l; intros H; [simpl; lia|]. rewrite zsum_cons. simpl in H.
  assert (0 <= a) by auto. assert (0 <= zsum l) by auto. lia.
Qed.
Lemma zsum_repeat a n : zsum (repeat a n) = Z.of_nat n * a.
Proof. induction n; simpl repeat; [simpl; lia|]. rewrite zsum_cons, IHn. lia. Qed.
Lemma zsum_map_const {A} (l : list A) c : zsum (map (fun _ => c) l) = zlen l * c.
Proof. induction l; simpl map; [reflexivity|]. rewrite zsum_cons, zlen_cons, IHl. lia. Qed.
Lemma zsum_map_add {A} (f g : A -> Z) l : zsum (map (fun a => f a + g a) l) = zsum (map f l) + zsum (map g l).
Proof. induction l; simpl map; [reflexivity|]. rewrite !zsum_cons, IHl. lia. Qed.
Lemma zsum_map_mul {A} (f : A -> Z) c l : zsum (map (fun a => c * f a) l) = c * zsum (map f l).
Proof. induction l; simpl map; [simpl; lia|]. rewrite !zsum_cons, IHl. lia. Qed.
Lemma zsum_abs_0 l : zsum (map Z.abs l) = 0 <-> (forall a, In a l -> a = 0).
Proof.
  induction l; cbn [map In].
  - split; intros; [tauto|reflexivity].
  - rewrite zsum_cons. assert (0 <= zsum (map Z.abs l)).
    { apply zsum_nonneg. intros b Hb. apply in_map_iff in Hb. destruct Hb as (c & <- & _). lia. }
    split.
    + intros E b [<-|Hb]; [lia|]. apply IHl; [lia|exact Hb].
    + intros E. assert (a = 0) by auto. subst. assert (zsum (map Z.abs l) = 0) by (apply IHl; auto). lia.
Qed.
Lemma zmem_In x l : zmem x l = true <-> In x l.
Proof.
  unfold zmem. rewrite existsb_exists. split.
  - intros (y & Hy & E). apply Z.eqb_eq in E. subst; auto.
  - intros H. exists x. split; [auto|apply Z.eqb_refl].
Qed.
Lemma zmem_not_In x l : zmem x l = false <-> ~ In x l.
Proof. rewrite <- zmem_In. destruct (zmem x l); split; congruence. Qed.

(** ** sorting *)
Section SortFacts.
  Context {A : Type} (lt : A -> A -> bool).
  Lemma sinsert_perm a l : Permutation (sinsert lt a l) (a :: l).
  Proof.
    induction l as [|b l IH]; simpl; [reflexivity|].
    destruct (lt b a); [|reflexivity]. rewrite IH. apply perm_swap.
  Qed.
  Lemma isort_perm l : Permutation (isort lt l) l.
  Proof.
    induction l as [|a l IH]; simpl; [reflexivity|]. rewrite sinsert_perm. constructor; exact IH.
  Qed.
  Lemma isort_In a l : In a (isort lt l) <-> In a l.
  Proof. split; apply Permutation_in; [|symmetry]; apply isort_perm. Qed.
  Lemma isort_zlen l : zlen (isort lt l) = zlen l.
  Proof. apply zlen_perm, isort_perm. Qed.
  (** sorted w.r.t. the negation of the comparison when that is a total preorder *)
  Definition nlt (a b : A) : Prop := lt b a = false.
  Lemma sinsert_sorted (D : A -> Prop) a l :
    (forall x y, D x -> D y -> lt x y = true -> lt y x = false) ->
    (forall x y z, D x -> D y -> D z -> nlt x y -> nlt y z -> nlt x z) ->
    D a -> Forall D l ->
    StronglySorted nlt l -> StronglySorted nlt (sinsert lt a l).
  Proof.
    intros Hasym Htrans Da. induction l as [|b l IH]; intros DL HS; simpl.
    - constructor; constructor.
    - inversion DL; subst. inversion HS; subst. destruct (lt b a) eqn:E.
      + constructor; [apply IH; auto|].
        apply Forall_forall. intros x Hx.
        apply (Permutation_in _ (sinsert_perm a l)) in Hx. destruct Hx as [<-|Hx].
        * apply Hasym; auto.
        * rewrite Forall_forall in H4; auto.
      + constructor; [exact HS|]. constructor; [exact E|].
        apply Forall_forall. intros x Hx. rewrite Forall_forall in H4, H2.
        apply Htrans with b; auto.
  Qed.
  Lemma isort_sorted (D : A -> Prop) l :
    (forall x y, D x -> D y -> lt x y = true -> lt y x = false) ->
    (forall x y z, D x -> D y -> D z -> nlt x y -> nlt y z -> nlt x z) ->
    Forall D l -> StronglySorted nlt (isort lt l).
  Proof.
    intros Hasym Htrans. induction l as [|a l IH]; simpl; intros HD; [constructor|].
    inversion HD; subst. apply (sinsert_sorted D); [exact Hasym|exact Htrans|assumption| |apply IH; assumption].
    apply Forall_forall. intros x Hx. apply (proj1 (isort_In _ _)) in Hx. rewrite Forall_forall in H2; auto.
  Qed.
End SortFacts.

Lemma sinsert_map {A B} (lt : A -> A -> bool) (lt' : B -> B -> bool) (f : A -> B) a l :
  (forall x y, lt' (f x) (f y) = lt x y) ->
  sinsert lt' (f a) (map f l) = map f (sinsert lt a l).
Proof.
  intros H. induction l as [|b l IH]; simpl; [reflexivity|]. rewrite H.
  destruct (lt b a); simpl; [f_equal; exact IH|reflexivity].
Qed.
Lemma isort_map {A B} (lt : A -> A -> bool) (lt' : B -> B -> bool) (f : A -> B) l :
  (forall x y, lt' (f x) (f y) = lt x y) ->
  isort lt' (map f l) = map f (isort lt l).
Proof.
  intros H. induction l as [|a l IH]; simpl; [reflexivity|]. rewrite IH. apply sinsert_map; exact H.
Qed.

(** two sorted permutations under an antisymmetric relation are equal *)
Lemma sorted_perm_eq {A} (R : A -> A -> Prop) (l m : list A) :
  (forall x y, In x l -> In y l -> R x y -> R y x -> x = y) ->
  StronglySorted R l -> StronglySorted R m -> Permutation l m -> l = m.
Proof.
  intros Hanti Hl. revert m Hanti. induction Hl as [|a l Hl IH Ha]; intros m Hanti Hm HP.
  - apply Permutation_nil in HP; auto.
  - inversion Hm as [|b m' Hm' Hb]; subst.
    + apply Permutation_sym, Permutation_nil in HP. discriminate.
    + assert (a = b).
      { rewrite Forall_forall in Ha, Hb.
        assert (In b (a :: l)) as [<-|Hbl] by (apply (Permutation_in _ (Permutation_sym HP)); left; auto); [auto|].
        assert (In a (b :: m')) as [<-|Hal] by (apply (Permutation_in _ HP); left; auto); [auto|].
        apply Hanti; simpl; auto. }
      subst b. f_equal. apply IH; auto.
      * intros; apply Hanti; simpl; auto.
      * eapply Permutation_cons_inv; exact HP.
Qed.

(** ** std::unique on a sorted vector *)
Lemma zuniq_In x l : In x (zuniq l) <-> In x l.
Proof.
  induction l as [|a l IH]; simpl; [tauto|].
  destruct l as [|b l]; [simpl; tauto|].
  destruct (Z.eqb_spec a b).
  - subst. rewrite IH. simpl; tauto.
  - simpl In at 1. rewrite IH. simpl; tauto.
Qed.
Lemma zuniq_sorted l : StronglySorted Z.le l -> StronglySorted Z.lt (zuniq l).
Proof.
  induction l as [|a l IH]; intros H; [constructor|].
  inversion H; subst. specialize (IH H2). simpl. destruct l as [|b l]; [constructor; constructor|].
  destruct (Z.eqb_spec a b); [exact IH|].
  constructor; [exact IH|]. apply Forall_forall. intros x Hx. apply (proj1 (zuniq_In _ _)) in Hx.
  inversion H2; subst. rewrite Forall_forall in H3, H5. specialize (H3 b (or_introl eq_refl)).
  destruct Hx as [<-|Hx]; [lia|]. specialize (H5 x Hx). lia.
Qed.
Lemma isort_Z_sorted l : StronglySorted Z.le (isort Z.ltb l).
Proof.
  assert (StronglySorted (nlt Z.ltb) (isort Z.ltb l)) as H.
  { apply isort_sorted with (D := fun _ => True).
    - intros x y _ _. lia.
    - unfold nlt. intros x y z _ _ _. lia.
    - apply Forall_forall; auto. }
  induction H; constructor; auto.
  eapply Forall_impl; [|exact H0]. unfold nlt. intros; lia.
Qed.
Lemma sorted_lt_NoDup l : StronglySorted Z.lt l -> NoDup l.
Proof.
  induction 1; constructor; auto. rewrite Forall_forall in H0. intros Hin. specialize (H0 a Hin). lia.
Qed.

(** ** std::lower_bound *)
Lemma lower_bound_fuel_spec {A} (below : A -> bool) (l : list A) fuel first len r :
  0 <= first -> 0 <= len -> first + len <= zlen l ->
  (forall i a, 0 <= i < first -> zget l i = Some a -> below a = true) ->
  (forall i a, first + len <= i -> zget l i = Some a -> below a = false) ->
  (forall i j a b, i <= j -> zget l i = Some a -> zget l j = Some b -> below b = true -> below a = true) ->
  lower_bound_fuel below l first len fuel = Some r ->
  0 <= r <= zlen l /\
  (forall i a, 0 <= i < r -> zget l i = Some a -> below a = true) /\
  (forall i a, r <= i -> zget l i = Some a -> below a = false).
Proof.
  revert first len. induction fuel as [|fuel IH]; intros first len Hf Hl Hle Hlo Hhi Hmono H; simpl in H; [discriminate|].
  destruct (Z.ltb_spec 0 len).
  - ob H as a E.
    assert (0 <= len / 2 < len) by (split; [apply Z.div_pos; lia|apply Z.div_lt; lia]).
    destruct (below a) eqn:Eb.
    + apply IH in H; auto; try lia.
      * intros i b Hi Eb'. destruct (Z_le_dec i (first + len / 2)); [|lia].
        eapply Hmono; [exact l0|exact Eb'|exact E|exact Eb].
      * intros i b Hi Eb'. apply (Hhi i); [lia|exact Eb'].
    + apply IH in H; auto; try lia.
      intros i b Hi Eb'. destruct (below b) eqn:E2; [|reflexivity].
      exfalso. assert (below a = true); [|congruence]. eapply Hmono; [|exact E|exact Eb'|exact E2]. lia.
  - inversion H; subst. assert (len = 0) by lia. subst. rewrite Z.add_0_r in *.
    repeat split; try lia; auto.
Qed.
Lemma lower_bound_fuel_total {A} (below : A -> bool) (l : list A) fuel first len :
  0 <= first -> 0 <= len -> first + len <= zlen l -> len < Z.of_nat fuel ->
  exists r, lower_bound_fuel below l first len fuel = Some r.
Proof.
  revert first len. induction fuel as [|fuel IH]; intros first len Hf Hl Hle Hfu; simpl; [lia|].
  destruct (Z.ltb_spec 0 len); [|eauto].
  assert (0 <= len / 2 < len) by (split; [apply Z.div_pos; lia|apply Z.div_lt; lia]).
  destruct (zget_lt l (first + len / 2)) as [a E]; [lia|]. rewrite E; simpl.
  destruct (below a); apply IH; lia.
Qed.
Lemma lower_bound_spec {A} (below : A -> bool) (l : list A) r :
  (forall i j a b, i <= j -> zget l i = Some a -> zget l j = Some b -> below b = true -> below a = true) ->
  lower_bound below l = Some r ->
  0 <= r <= zlen l /\
  (forall i a, 0 <= i < r -> zget l i = Some a -> below a = true) /\
  (forall i a, r <= i -> zget l i = Some a -> below a = false).
Proof.
  intros Hm H. unfold lower_bound in H. apply lower_bound_fuel_spec in H; auto; try lia.
  - intros i a Hi E. apply zget_range in E. lia.
Qed.
Lemma lower_bound_total {A} (below : A -> bool) (l : list A) : exists r, lower_bound below l = Some r.
Proof.
  unfold lower_bound. apply lower_bound_fuel_total; unfold zlen; lia.
Qed.

(** ** NoDup helpers *)
Lemma NoDup_app_iff_local {A} (l m : list A) :
  NoDup l -> NoDup m -> (forall b, In b l -> In b m -> False) -> NoDup (l ++ m).
Proof.
  intros Hl Hm Hd. induction Hl as [|a l Ha Hl IH]; simpl; [exact Hm|]. constructor.
  - rewrite in_app_iff. intros [H|H]; [contradiction|]. eapply Hd; [left; reflexivity|exact H].
  - apply IH. intros b H1 H2. eapply Hd; [right; exact H1|exact H2].
Qed.
Lemma NoDup_map_inj {A B} (f : A -> B) l :
  (forall x y, In x l -> In y l -> f x = f y -> x = y) -> NoDup l -> NoDup (map f l).
Proof.
  intros H ND. induction ND as [|a l Ha ND IH]; simpl; constructor.
  - intros Hin. apply in_map_iff in Hin. destruct Hin as (y & E & Hy).
    assert (y = a) by (apply H; simpl; auto). subst; contradiction.
  - apply IH. intros; apply H; simpl; auto.
Qed.
Lemma NoDup_flat_map {A B} (f : A -> list B) l :
  NoDup l -> (forall x, In x l -> NoDup (f x)) ->
  (forall x y b, In x l -> In y l -> In b (f x) -> In b (f y) -> x = y) ->
  NoDup (flat_map f l).
Proof.
  intros ND. induction ND as [|a l Ha ND IH]; intros Hf Hd; simpl; [constructor|].
  apply NoDup_app_iff_local.
  - apply Hf; simpl; auto.
  - apply IH; intros; [apply Hf|eapply Hd]; simpl; eauto.
  - intros b Hb Hb'. apply in_flat_map in Hb'. destruct Hb' as (y & Hy & Hb').
    assert (a = y) by (eapply Hd; simpl; eauto). subst; contradiction.
Qed.
