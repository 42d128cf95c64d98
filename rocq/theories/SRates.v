(** Specification: what the rate calculator of the user is told. *)
From Verif Require Export SPossible.
Open Scope string_scope.
Open Scope list_scope.
Open Scope Z_scope.

(** d is the shortest of its periodic images *)
Definition shortest (L : lattice) (d : coord) : Prop :=
  window1 (lt_pa L) (lt_ra L * lt_unit L) (cx d) /\ window1 (lt_pb L) (lt_rb L * lt_unit L) (cy d) /\ window1 (lt_pc L) (lt_rc L * lt_unit L) (cz d).
(** ys are the sites around x up to the squared distance cut2, ds their positions relative to x, nearest first *)
Record surroundings (L : lattice) (coords : list coord) (cut2 x : Z) (ys : list Z) (ds : list coord) : Prop := {
  su_len : zlen ys = zlen ds;
  su_nodup : NoDup ys;
  su_at : forall j y d, zget ys j = Some y -> zget ds j = Some d -> siteAt L coords x d y /\ shortest L d /\ cnorm2 d <= cut2;
  su_nearest : forall j k d e, j <= k -> zget ds j = Some d -> zget ds k = Some e -> cnorm2 d <= cnorm2 e;
  su_all : forall y d, siteAt L coords x d y -> shortest L d -> cnorm2 d <= cut2 -> In y ys }.

(** plain processes: one type per site; after the event the rows that change something have changed their sites *)
Record toldPlain (cf : config) (rows : list row) (ys : list Z) (ds : list coord) (before after : list string) : Prop := {
  tp_len : zlen before = zlen ys /\ zlen after = zlen ys;
  tp_before : forall j y s, zget ys j = Some y -> zget before j = Some s -> exists more, zget (cf_elements cf) y = Some (s :: more);
  tp_after : forall j d r, zget ds j = Some d -> In r rows -> rw_c r = d -> rw_before r <> rw_after r -> zget after j = Some (rw_after r);
  tp_same : forall j d, zget ds j = Some d -> (forall r, In r rows -> rw_c r = d -> rw_before r = rw_after r) -> zget after j = zget before j }.

(** the number of particles of type s at site y *)
Definition amount (cf : config) (y : Z) (s : string) (n : Z) : Prop :=
  exists k t, tfind (cf_ptypes cf) s = Some k /\ zget (cf_types cf) y = Some t /\ zget t k = Some n.
(** bucket processes: the numbers of particles of the types that are present, before and after the event, one entry per type *)
Record toldBucket (cf : config) (rows : list brow) (ys : list Z) (ds : list coord) (before after : list (list (Z * string))) : Prop := {
  tb_len : zlen before = zlen ys /\ zlen after = zlen ys;
  tb_before : forall j y l n s, zget ys j = Some y -> zget before j = Some l -> (In (n, s) l <-> s <> "*" /\ 0 < n /\ amount cf y s n);
  tb_after : forall j y d l r n s, zget ys j = Some y -> zget ds j = Some d -> zget after j = Some l -> In r rows -> br_c r = d ->
     (In (n, s) l <-> s <> "*" /\ 0 < n /\ exists m, amount cf y s m /\ n = m + change (br_upd r) s);
  tb_same : forall j d, zget ds j = Some d -> (forall r, In r rows -> br_c r <> d) -> zget after j = zget before j;
  tb_nodup : forall j l, zget before j = Some l \/ zget after j = Some l -> NoDup (map snd l) }.

(** every displacement along an axis that is not longer than the cutoff leads at most R cells away *)
Definition coversCut (L : lattice) (basis : list coord) (R cut2 : Z) : Prop :=
  forall a b i, In a basis -> In b basis ->
    (((cx b - cx a + i * lt_unit L) * (cx b - cx a + i * lt_unit L) <= cut2 -> Z.abs i <= R) /\
     ((cy b - cy a + i * lt_unit L) * (cy b - cy a + i * lt_unit L) <= cut2 -> Z.abs i <= R) /\
     ((cz b - cz a + i * lt_unit L) * (cz b - cz a + i * lt_unit L) <= cut2 -> Z.abs i <= R)).
