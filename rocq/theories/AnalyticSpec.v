(* What it means to insert numbers for symbols. *)
From Coq Require Import List ZArith Bool.
From Verif Require Import Base Fld Particle ParticleSpec Phase Str Compute ComputeSpec RatFun Analytic.
Import ListNotations.

Section Subst.
Open Scope fld_scope.
(* the polynomial with the coefficients l at x *)
Fixpoint horner {K : Fld} (l : list K) (x : K) : K := match l with [] => 0 | a :: l' => a + x * horner l' x end.
(* y is the value at t of the rational function f of one variable, whose coefficients have the
   values given by R: f = n/d with polynomials n, d, and the value of d is not zero *)
Definition rf_at {L K : Fld} (R : L -> K -> Prop) (t : K) (f : RatFun L) (y : K) : Prop :=
  exists (n d : list L) (n' d' : list K), Forall2 R n n' /\ Forall2 R d d' /\
    f * horner (map rconst d : list (RatFun L)) rvar = horner (map rconst n : list (RatFun L)) rvar /\ horner d' t <> 0 /\ y * horner d' t = horner n' t.
Variables (K0 K : Fld) (R0 : K0 -> K -> Prop) (v : nat -> K).
(* y is the value of the expression x for the values v of the symbols; R0 says which numbers
   of K the numbers in the expression become *)
Fixpoint subst (m : nat) : tower K0 m -> K -> Prop :=
  match m with O => R0 | S m' => rf_at (subst m') (v m') end.
End Subst.
Arguments subst {K0 K} R0 v m x y.
(* a number has at most one counterpart *)
Definition functional {A B : Type} (R : A -> B -> Prop) : Prop := forall x y y', R x y -> R x y' -> y = y'.
(* the name of the j-th symbol: a1, b1, c1, d1, a2, ... *)
Definition name (j : nat) : pystr := (97 + Z.of_nat (j mod 4))%Z :: dec (Z.of_nat (j / 4 + 1)).
(* the values that a dictionary gives to the symbols *)
Definition given {K : Fld} (d : dict K) (j : nat) : K := match dict_get (name j) d with Some x => x | None => f0 end.
(* the dictionary has a value for each of the m symbols *)
Definition complete {K : Fld} (m : nat) (d : dict K) : Prop := forall j, (j < m)%nat -> dict_get (name j) d <> None.
(* the spinor components of a point in the order of the symbols *)
Definition components {K : Fld} (s : ps K) : list K :=
  flat_map (fun p => match r_d p, l_d p with Some r, Some l => [e0 r; e1 r; e0 l; e1 l] | _, _ => [] end) s.
(* a point without spinor of a leg missing *)
Definition has_spinors {K : Fld} (p : particle K) : Prop := r_d p <> None /\ l_d p <> None.
(* the number j is kept, and no symbol is put in its place *)
Definition kept (indep : option (list bool)) (j : nat) : Prop := exists l, indep = Some l /\ nth_error l j = Some true.
(* every entry is zero *)
Definition is_zero {K : Fld} (v : val K) : Prop :=
  match v with VS x => x = f0 | VRow u | VCol u => u = V2 f0 f0 | VMat m => m = mzero end.
(* the covariant e can be computed at t and is zero there *)
Definition vanishes {K : Fld} (t : ps K) (e : inv) : Prop := exists v, compute t e = Ok v /\ is_zero v.
(* the entries of a value *)
Definition coords {K : Fld} (v : val K) : list K :=
  match v with VS x => [x] | VRow u | VCol u => [e0 u; e1 u] | VMat m => [m00 m; m01 m; m10 m; m11 m] end.
(* a massless point with n legs *)
Definition point {K : Fld} (n : nat) (t : ps K) : Prop := length t = n /\ Forall reproduces t.
(* the covariant e can be computed at points of n legs, and none of its entries has the same
   value at all of them *)
Definition varies (K : Fld) (n : nat) (e : inv) : Prop :=
  exists (t : ps K) v, point n t /\ compute t e = Ok v /\
  forall k x, nth_error (coords v) k = Some x ->
    exists (t' : ps K) v' x', point n t' /\ compute t' e = Ok v' /\ nth_error (coords v') k = Some x' /\ x <> x'.
