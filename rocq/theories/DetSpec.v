(* The determinant as a sum over permutations. *)
From Coq Require Import List ZArith Bool Arith Permutation.
From Verif Require Import Base Fld.
Import ListNotations.

(* a permutation of 0..n-1 is the list of its values; number of inversions *)
Fixpoint invs (l : list nat) : nat :=
  match l with
  | [] => 0
  | x :: l' => length (filter (fun y => y <? x) l') + invs l'
  end.
Section Leibniz.
Context {K : Fld}.
Open Scope fld_scope.
Definition sgn (l : list nat) : K := if Nat.even (invs l) then 1 else - (1).
(* m r l_0 * m (r+1) l_1 * ... *)
Fixpoint diag (m : nat -> nat -> K) (r : nat) (l : list nat) : K :=
  match l with [] => 1 | x :: l' => m r x * diag m (S r) l' end.
Definition leibniz (perms : list (list nat)) (m : nat -> nat -> K) : K :=
  fold_right (fun l acc => sgn l * diag m 0 l + acc) 0 perms.
(* a list of all permutations of 0..n-1, each once *)
Definition all_perms (n : nat) (perms : list (list nat)) : Prop :=
  NoDup perms /\ (forall l, In l perms <-> Permutation l (seq 0 n)).
End Leibniz.
