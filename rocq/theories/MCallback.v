(** Model: the Python side of the custom rate calculator (KMCRateCalculatorPlugin.py, ConversionUtilities.py). *)
From Verif Require Import Base MMatch MInteractions.
Open Scope string_scope.
Open Scope list_scope.
Open Scope Z_scope.

(** typebucket.h 240-255 (TypeBucket::add); throws unless the sizes agree *)
Definition bucketAdd (a b : bucket) : option bucket :=
  if zlen a =? zlen b then Some (map (fun xy => fst xy + snd xy) (combine a b)) else None.
(** ConversionUtilities.py 244-277 (stdVectorTypeBucketToPython), one site: the types 1 .. size-1 with a positive number *)
Definition siteToPython (names : list string) (t : bucket) : option (list (Z * string)) :=
  ls <- omap (fun j => s <- zget names j ;; n <- zget t j ;; Some (if 0 <? n then [(n, s)] else [])) (zrange 1 (zlen t - 1)) ;;
  Some (concat ls).
Definition bucketsToPython (names : list string) (ts : list bucket) : option (list (list (Z * string))) :=
  omap (siteToPython names) ts.
(** KMCRateCalculatorPlugin.py 38-69 (backendRateCallbackBuckets): what is handed to the rate function of the user.  A failure of the
    conversion (an exception that crosses into the backend) is None. *)
Definition callbackBuckets (occ upd : list bucket) (names : list string)
  : option (list (list (Z * string)) * list (list (Z * string))) :=
  after <- omap (fun i => o <- zget occ i ;; u <- zget upd i ;; bucketAdd o u) (zrange 0 (zlen upd - 1)) ;;
  b <- bucketsToPython names occ ;;
  a <- bucketsToPython names after ;;
  Some (b, a).

(** The two rate functions of a user: for types given as strings (plain processes) and as lists of pairs (bucket processes); the arguments
    are geometry, before, after, rate constant, process number, global coordinate (KMCRateCalculatorPlugin.py 100-160, rate).
    Simplification: the model of the backend asks the calculator for a number in every case, so a failed conversion gives 0;
    C59 shows that no conversion fails. *)
Definition pyCalculator
  (rateS : list coord -> list string -> list string -> Z -> Z -> coord -> Z)
  (rateB : list coord -> list (list (Z * string)) -> list (list (Z * string)) -> Z -> Z -> coord -> Z) : ratecalc :=
  mkRC rateS
    (fun geo occ upd names r n g => match callbackBuckets occ upd names with Some (b, a) => rateB geo b a r n g | None => 0 end).
