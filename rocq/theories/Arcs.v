(* Model of Particles.ijk_to_3NonOverlappingLists. *)
From Coq Require Import List ZArith Bool.
From Verif Require Import Base.
Import ListNotations.
Open Scope Z_scope.

Definition zmem (x : Z) (l : list Z) : bool := existsb (Z.eqb x) l.

(* particles.py:478-481: (last_entry + 1) % n, with 0 replaced by n; n = 0 raises *)
Definition next_leg (n x : Z) : Z := let y := (x + 1) mod n in if y =? 0 then n else y.

(* particles.py:477-486: the inner `while True` for one of the three lists; l1 and
   l2 are the other two lists.  [fuel] bounds the number of turns; running out of
   it is reported as Diverges. *)
Fixpoint grow (fuel : nat) (n : Z) (l l1 l2 : list Z) : result (list Z) :=
  match fuel with
  | O => Err Diverges
  | S fuel' =>
      let new_entry := next_leg n (last l 0) in
      if negb (zmem new_entry l1) && negb (zmem new_entry l2)
      then grow fuel' n (l ++ [new_entry]) l1 l2
      else Ok l
  end.

(* particles.py:474-491 with mode=1; ijk with fewer than three entries raises
   IndexError, more than three are ignored; len(self) = 0 raises ZeroDivisionError *)
Definition arcs (fuel : nat) (n : Z) (ijk : list Z) : result (list Z * list Z * list Z) :=
  match ijk with
  | i :: j :: k :: _ =>
      if n =? 0 then Err ZeroDivisionError else
      rbind (grow fuel n [i] [j] [k]) (fun l0 =>
      rbind (grow fuel n [j] [k] l0) (fun l1 =>
      rbind (grow fuel n [k] l0 l1) (fun l2 => Ok (l0, l1, l2))))
  | _ => Err IndexError
  end.
