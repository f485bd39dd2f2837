(* The numbers the library computes with, and 2-vectors / 2x2 matrices. *)
From Coq Require Import List ZArith Bool Lia Ring Field.
From Verif Require Import Base.
Import ListNotations.

(* Models `syngular.Field` as used by lips (particle.py:40 `self.field`):
   an exact field of characteristic other than 2.
   - [fsqrt] models `field.sqrt` (particle.py:320,368,386): [None] stands for
     "raises ValueError"; when a value is returned it squares to the argument.
   - [fimag] models multiplication by python's `1j` (particle.py:362,380 and the
     Pauli matrices tools.py:23): [None] means that such products raise TypeError,
     as for a finite field without a square root of -1.
   Simplification: floating point (mpc) and p-adic rounding are not modelled;
   `abs(x) <= field.tollerance` is read as x = 0. *)
Record Fld : Type := mkFld {
  car :> Type;
  f0 : car; f1 : car;
  fadd : car -> car -> car; fmul : car -> car -> car;
  fsub : car -> car -> car; fopp : car -> car;
  fdiv : car -> car -> car; finv : car -> car;
  fth : field_theory f0 f1 fadd fmul fsub fopp fdiv finv (@eq car);
  feqb : car -> car -> bool;
  feqb_ok : forall x y, feqb x y = true <-> x = y;
  f2_nz : fadd f1 f1 <> f0;
  fsqrt : car -> option car;
  fsqrt_ok : forall x y, fsqrt x = Some y -> fmul y y = x;
  fimag : option car;
  fimag_ok : forall i, fimag = Some i -> fmul i i = fopp f1
}.
Arguments f0 {f}. Arguments f1 {f}. Arguments fadd {f}. Arguments fmul {f}.
Arguments fsub {f}. Arguments fopp {f}. Arguments fdiv {f}. Arguments finv {f}.
Arguments feqb {f}. Arguments fsqrt {f}. Arguments fimag {f}.

Declare Scope fld_scope.
Delimit Scope fld_scope with fld.
Notation "0" := f0 : fld_scope.
Notation "1" := f1 : fld_scope.
Notation "2" := (fadd f1 f1) : fld_scope.
Infix "+" := fadd : fld_scope.
Infix "*" := fmul : fld_scope.
Infix "-" := fsub : fld_scope.
Notation "- x" := (fopp x) : fld_scope.
Infix "/" := fdiv : fld_scope.

Section Vec.
Context {K : Fld}.
Open Scope fld_scope.

(* x / y in python: ZeroDivisionError when y is zero.; e.g. particles.py:290, particle.py:369 *)
Definition divE (x y : K) : result K :=
  if feqb y 0 then Err ZeroDivisionError else Ok (x / y).

(* a numpy array with two entries, shape (2,1) or (1,2) *)
Record v2 : Type := V2 { e0 : K; e1 : K }.
(* a numpy array of shape (2,2) *)
Record m2 : Type := M2 { m00 : K; m01 : K; m10 : K; m11 : K }.
(* a numpy array of shape (4,) *)
Record v4 : Type := V4 { c0 : K; c1 : K; c2 : K; c3 : K }.

(* + of arrays, e.g. particles_slices.py:31 *)
Definition vadd (u v : v2) : v2 := V2 (e0 u + e0 v) (e1 u + e1 v).
(* - of arrays, e.g. particle.py:460 *)
Definition vsub (u v : v2) : v2 := V2 (e0 u - e0 v) (e1 u - e1 v).
(* number times array, e.g. particles_slices.py:31 *)
Definition vscale (c : K) (u : v2) : v2 := V2 (c * e0 u) (c * e1 u).
(* - of an array, e.g. particles.py:297 *)
Definition vopp (u : v2) : v2 := V2 (- e0 u) (- e1 u).
(* the array of zeros, e.g. the start value of sum in particles.py:289 *)
Definition vzero : v2 := V2 0 0.
(* + of (2,2) arrays, e.g. particle.py:77 *)
Definition madd (a b : m2) : m2 :=
  M2 (m00 a + m00 b) (m01 a + m01 b) (m10 a + m10 b) (m11 a + m11 b).
(* - of (2,2) arrays, e.g. particle.py:91 *)
Definition msub (a b : m2) : m2 :=
  M2 (m00 a - m00 b) (m01 a - m01 b) (m10 a - m10 b) (m11 a - m11 b).
(* number times (2,2) array, e.g. particle.py:95 *)
Definition mscale (c : K) (a : m2) : m2 :=
  M2 (c * m00 a) (c * m01 a) (c * m10 a) (c * m11 a).
(* - of a (2,2) array, e.g. particles.py:182 *)
Definition mopp (a : m2) : m2 := M2 (- m00 a) (- m01 a) (- m10 a) (- m11 a).
(* the (2,2) array of zeros, e.g. the start value of the sum in particles.py:105 *)
Definition mzero : m2 := M2 0 0 0 0.
(* the (2,2) identity, Pauli_zero of tools.py:21 *)
Definition mone : m2 := M2 1 0 0 1.
(* numpy.dot / @ of two (2,2) arrays *)
Definition mmul (a b : m2) : m2 :=
  M2 (m00 a * m00 b + m01 a * m10 b) (m00 a * m01 b + m01 a * m11 b)
     (m10 a * m00 b + m11 a * m10 b) (m10 a * m01 b + m11 a * m11 b).
(* (2,2) @ (2,1); e.g. particles.py:299 *)
Definition mv (a : m2) (v : v2) : v2 :=
  V2 (m00 a * e0 v + m01 a * e1 v) (m10 a * e0 v + m11 a * e1 v).
(* (1,2) @ (2,2); e.g. particles.py:296 *)
Definition vm (v : v2) (a : m2) : v2 :=
  V2 (e0 v * m00 a + e1 v * m10 a) (e0 v * m01 a + e1 v * m11 a).
(* (1,2) @ (2,1); e.g. particles_compute.py:161,173 *)
Definition vdot (u v : v2) : K := e0 u * e0 v + e1 u * e1 v.
(* (2,1) @ (1,2); e.g. particle.py:422-423 *)
Definition outer (u v : v2) : m2 :=
  M2 (e0 u * e0 v) (e0 u * e1 v) (e1 u * e0 v) (e1 u * e1 v).
(* array.T, e.g. particle.py:342-343 *)
Definition mT (a : m2) : m2 := M2 (m00 a) (m10 a) (m01 a) (m11 a).
(* numpy.trace, e.g. particles_compute.py:98-101 *)
Definition mtr (a : m2) : K := m00 a + m11 a.
(* the mathematical 2x2 determinant; tools.py:95-104 for size 2, see Det.v *)
Definition mdet (a : m2) : K := m00 a * m11 a - m01 a * m10 a.

(* all entries agree, particle.py:60-65 *)
Definition meqb (a b : m2) : bool :=
  feqb (m00 a) (m00 b) && feqb (m01 a) (m01 b) && feqb (m10 a) (m10 b) && feqb (m11 a) (m11 b).
(* the same for spinors, particle.py:60-65 *)
Definition veqb (u v : v2) : bool := feqb (e0 u) (e0 v) && feqb (e1 u) (e1 v).

Lemma meqb_ok a b : meqb a b = true <-> a = b.
Proof.
  destruct a, b; unfold meqb; cbn.
  rewrite !andb_true_iff, !feqb_ok.
  split; [intros [[[-> ->] ->] ->]; reflexivity | intros H; inversion H; auto].
Qed.
Lemma veqb_ok a b : veqb a b = true <-> a = b.
Proof.
  destruct a, b; unfold veqb; cbn.
  rewrite !andb_true_iff, !feqb_ok.
  split; [intros [-> ->]; reflexivity | intros H; inversion H; auto].
Qed.
Lemma feqb_refl (x : K) : feqb x x = true.
Proof. apply feqb_ok; reflexivity. Qed.
Lemma feqb_neq (x y : K) : feqb x y = false <-> x <> y.
Proof.
  split.
  - intros H E; apply (feqb_ok K) in E; congruence.
  - intros H; destruct (feqb x y) eqn:E; [apply (feqb_ok K) in E; contradiction | reflexivity].
Qed.
Lemma f1_nz : (1 : K) <> 0.
Proof. exact (F_1_neq_0 (fth K)). Qed.

(* sum([...]) of (2,2) arrays; python's start value 0 broadcasts to zero *)
Definition msum (l : list m2) : m2 := fold_right madd mzero l.

End Vec.

Arguments v2 K : clear implicits.
Arguments m2 K : clear implicits.
Arguments v4 K : clear implicits.

(* Solve equalities of field elements, 2-vectors or matrices componentwise. *)
Ltac unfold_vec :=
  unfold msub, madd, mscale, mopp, mmul, mv, vm, vdot, outer, mT, mtr, mdet,
         vadd, vsub, vscale, vopp, mzero, mone, vzero in *; cbn [e0 e1 m00 m01 m10 m11 c0 c1 c2 c3] in *.
