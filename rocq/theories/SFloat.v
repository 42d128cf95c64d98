(** Specification: doubles and the numbers they stand for. *)
From Coq Require Import Reals.
From Flocq Require Import Core BinarySingleNaN.
From Verif Require Export MFloat.
Open Scope Z_scope.
Open Scope list_scope.

(** the real number a double stands for *)
Notation val := (@B2R 53 1024).
(** neither an infinity nor not-a-number *)
Definition fin (x : f64) : Prop := is_finite x = true.
(** x is exactly z units of 2^e *)
Definition asDouble (e z : Z) (x : f64) : Prop := fin x /\ val x = (IZR z * bpow radix2 e)%R.

(** The rates of the available sites of a process: its own rate once for every site, or the rates of the sites. *)
Definition listedRates (p : fproc) : list f64 := if fp_custom p then fp_srates p else map (fun _ => fp_rate p) (fp_sites p).
(** their sum, without rounding *)
Definition exactTotal (p : fproc) : R := fold_right Rplus 0%R (map val (listedRates p)).
Definition fone : f64 := ofInt 1.

(** The states of a process: sites are added (with multiplicity 1.0, matcher.cpp 461-496), removed and cleared in any order, and its table
    is brought up to date at any time.  The number counts the additions and removals since the last clearing.  All rates satisfy rateOK,
    all states satisfy ok. *)
Inductive history (rateOK : f64 -> Prop) (ok : fproc -> Prop) : Z -> fproc -> Prop :=
| hi_start custom rate : rateOK rate -> history rateOK ok 0 (mkFP custom rate [] [] [] [] fzero)
| hi_add n p index rate : history rateOK ok n p -> rateOK rate -> ok (faddSite p index rate fone) -> history rateOK ok (n + 1) (faddSite p index rate fone)
| hi_remove n p index p' : history rateOK ok n p -> fremoveSite p index = Some p' -> ok p' -> history rateOK ok (n + 1) p'
| hi_clear n p : history rateOK ok n p -> history rateOK ok 0 (fclearSites p)
| hi_table n p p' : history rateOK ok n p -> fupdateRateTable p = Some p' -> history rateOK ok n p'.

(** A process of the model with integer rates, and the same process with doubles: every rate is that many units of 2^e. *)
Record sameRates (e : Z) (p : process) (fp : fproc) : Prop := {
  sr_custom : fp_custom fp = pr_custom p;
  sr_sites : fp_sites fp = pr_sites p;
  sr_mult : Forall2 (asDouble 0) (pr_mult p) (fp_mult fp);
  sr_srates : Forall2 (asDouble e) (pr_srates p) (fp_srates fp);
  sr_rate : asDouble e (pr_rate p) (fp_rate fp);
  sr_inc : Forall2 (asDouble e) (pr_inc p) (fp_inc fp);
  sr_total : asDouble e (pr_total p) (fp_total fp) }.
