(** What the mean square displacement analysis reports, said without looking at how it works. *)
From Verif Require Export MMsd SStep SAnalysis SBlocker.
Open Scope Z_scope.
Open Scope list_scope.

(** A run is seen as a start and a list of observations (time, configuration). *)
(** the position of atom id now, if it is of the tracked type *)
Definition stopAt (track : string) (id : Z) (o : Z * config) : list stop :=
  match zget (cf_aidelements (snd o)) id, zget (cf_aidcoords (snd o)) id with
  | Some ty, Some c => if String.eqb ty track then [(c, fst o)] else []
  | _, _ => []
  end.
(** the stops of atom id, oldest first: where it started, and where it came to whenever it was reported as moved *)
Definition stops (track : string) (id : Z) (start : Z * config) (steps : list (Z * config)) : list stop :=
  stopAt track id start ++ flat_map (fun o => flat_map (fun j => if j =? id then stopAt track id o else []) (movedAtomIDs (snd o))) steps.
(** a comparison: the new stop, the older one, and by how many stops it is older *)
Definition comparison : Type := Z * stop * stop.
Definition lag (c : comparison) : Z := fst (fst c).
Definition newer (c : comparison) : stop := snd (fst c).
Definition older (c : comparison) : stop := snd c.
(** every stop is compared with each of the [reach] stops before it *)
Definition compared (reach : Z) (l : list stop) : list comparison :=
  flat_map (fun k => flat_map (fun d => match zget l k, zget l (k - d) with Some a, Some b => [(d, a, b)] | _, _ => [] end) (zrange 1 reach)) (zrange 0 (zlen l - 1)).
(** the comparisons of all atoms *)
Definition allCompared (reach : Z) (n : Z) (st : Z -> list stop) : list comparison := flat_map (fun id => compared reach (st id)) (zrange 0 (n - 1)).
(** the time difference falls in bin b of nbins bins that share the time tmax: b * tmax/nbins <= dt < (b+1) * tmax/nbins *)
Definition fallsIn (tmax nbins b : Z) (c : comparison) : bool := inBin tmax b ((snd (newer c) - snd (older c)) * nbins).
(** the squares of the Cartesian components of the displacement; a, b, c are the cell vectors *)
Definition cartesian (a b c v : coord) : coord :=
  mkC (cx v * cx a + cy v * cx b + cz v * cx c) (cx v * cy a + cy v * cy b + cz v * cy c) (cx v * cz a + cy v * cz b + cz v * cz c).
Definition squares (v : coord) : coord := mkC (cx v ^ 2) (cy v ^ 2) (cz v ^ 2).
Definition squared (a b c : coord) (k : comparison) : coord := squares (cartesian a b c (csub (fst (newer k)) (fst (older k)))).
(** the observations fit n atoms *)
Definition nAtoms (n : Z) (o : Z * config) : Prop :=
  zlen (cf_elements (snd o)) = n /\ zlen (cf_aidelements (snd o)) = n /\ zlen (cf_aidcoords (snd o)) = n /\ forall id, In id (movedAtomIDs (snd o)) -> 0 <= id < n.
(** the seven directions of the results: x, y, z, the planes xy, xz, yz, and space *)
Definition directions : list (coord -> Z) := [cx; cy; cz; fun c => cx c + cy c; fun c => cx c + cz c; fun c => cy c + cz c; fun c => cx c + cy c + cz c].
