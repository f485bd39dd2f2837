(* Model of tools.det. *)
From Coq Require Import List ZArith Bool Arith.
From Verif Require Import Base Fld.
Import ListNotations.

Section Det.
Context {K : Fld}.
Open Scope fld_scope.

(* a square numpy array of size n: entry (i, j) for i, j < n *)
Definition mat := nat -> nat -> K.
(* matrix[1:, [i for i in range(size) if i != col]], tools.py:101 *)
Definition minor (m : mat) (col : nat) : mat :=
  fun i j => m (S i) (if Nat.ltb j col then j else S j).
(* (-1) ** k; tools.py:102 *)
Definition alt (k : nat) : K := if Nat.even k then 1 else - (1).
(* sum(... for c in l), left to right from 0 *)
Definition lsum {A} (f : A -> K) (l : list A) : K := fold_left (fun acc c => acc + f c) l 0.
(* tools.py:95-104; the array of shape (0,0) has an empty loop and determinant 0 *)
Fixpoint det (n : nat) (m : mat) : K :=
  match n with
  | O => 0
  | S n' => match n' with
            | O => m 0%nat 0%nat
            | S _ => lsum (fun col => alt col * m 0%nat col * det n' (minor m col)) (seq 0 n)
            end
  end.
(* a (2,2) array as such a matrix; tools.py:95 *)
Definition mat_of_m2 (m : m2 K) : mat :=
  fun i j => match i, j with
             | O, O => m00 m | O, _ => m01 m | _, O => m10 m | _, _ => m11 m
             end.
(* det of a (2,2) array; tools.py:95-104, called by particle.py lsq *)
Definition det2 (m : m2 K) : K := det 2 (mat_of_m2 m).
End Det.
Arguments mat K : clear implicits.
