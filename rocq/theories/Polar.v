(* Model of ep, pe and ee, lips/particles_compute.py:50-74: contractions of polarisation
   vectors.  The attributes helconf (a string or a list of one-character strings) and
   oRefVec (a particle) are arguments.  The square root of two is the one of the field;
   mpmath.sqrt(2) cannot be multiplied with a number modulo p, TypeError. *)
From Coq Require Import List ZArith Bool.
From Verif Require Import Base Fld Particle Index Phase.
Import ListNotations.

(* l[i] for any integer i, negative ones count from the end (particles_compute.py:52,56,67,69) *)
Definition py_get {A} (l : list A) (i : Z) : result A :=
  let j := if (i <? 0)%Z then (i + zlen l)%Z else i in
  if (j <? 0)%Z then Err IndexError else match nth_error l (Z.to_nat j) with Some x => Ok x | None => Err IndexError end.
(* the symbols "+", "p" and "-", "m", particles_compute.py:52,56,69 *)
Definition plus_like (h : Z) : bool := (Z.eqb h 43 || Z.eqb h 112)%bool.
(* particles_compute.py:52,56,69 *)
Definition minus_like (h : Z) : bool := (Z.eqb h 45 || Z.eqb h 109)%bool.

Section Polar.
Context {K : Fld}.
Open Scope fld_scope.
Open Scope res_scope.

(* an attribute that is None, in an operation of arrays (particles_compute.py:54-59,71-72) *)
Definition the {A} (o : option A) : result A := match o with Some a => Ok a | None => Err TypeError end.
(* u m v for a row, a matrix and a column (particles_compute.py:54,58,71,72) *)
Definition sandwich (u : v2 K) (m : m2 K) (v : v2 K) : K := vdot u (mv m v).

(* particles_compute.py:50-59; None: the python function falls through and returns None *)
Definition ep (helconf : list Z) (q : particle K) (s : ps K) (i j : Z) : result (option K) :=
  h <-? py_get helconf (i - 1) ;;
  if plus_like h then
    rq <-? the (r_u q) ;; pj <-? getitem s j ;; pi <-? getitem s i ;; li <-? the (l_u pi) ;;
    s2 <-? the (fsqrt 2) ;; ri <-? the (r_d pi) ;;
    rmap Some (divE (sandwich rq (r2b pj) li) (s2 * vdot rq ri))
  else if minus_like h then
    pi <-? getitem s i ;; ri <-? the (r_u pi) ;; pj <-? getitem s j ;; lq <-? the (l_u q) ;;
    s2 <-? the (fsqrt 2) ;; li <-? the (l_d pi) ;;
    rmap Some (divE (sandwich ri (r2b pj) lq) (s2 * vdot li lq))
  else Ok None.
(* particles_compute.py:61-63 *)
Definition pe (helconf : list Z) (q : particle K) (s : ps K) (i j : Z) : result (option K) := ep helconf q s j i.
(* particles_compute.py:65-74; the recursion limit is [fuel] *)
Fixpoint ee (fuel : nat) (helconf : list Z) (q : particle K) (s : ps K) (i j : Z) : result K :=
  match fuel with
  | O => Err RecursionError
  | S f =>
      hi <-? py_get helconf (i - 1) ;; hj <-? py_get helconf (j - 1) ;;
      if (hi =? hj)%Z then Ok 0
      else if minus_like hi then
        pi <-? getitem s i ;; ri <-? the (r_u pi) ;; pj <-? getitem s j ;; lj <-? the (l_u pj) ;;
        rj <-? the (r_u pj) ;; li <-? the (l_u pi) ;;
        rmap (fun x => - x) (divE (sandwich ri (r2b q) lj) (sandwich rj (r2b q) li))
      else ee f helconf q s j i
  end.
End Polar.
