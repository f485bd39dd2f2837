(* Elements with the same key, and lists that do not decrease. *)
From Coq Require Import List ZArith.
Import ListNotations.
Open Scope Z_scope.
Definition with_key {A} (c : Z) (l : list (Z * A)) : list A := map snd (filter (fun x => fst x =? c) l).
Definition ordered (l : list Z) : Prop := forall i j a b, (i < j)%nat -> nth_error l i = Some a -> nth_error l j = Some b -> a <= b.
(* the place that a digit stands for in a list of n entries: 0 is the last one *)
Definition place (n : nat) (c : Z) : nat := if c =? 0 then Nat.pred n else Z.to_nat (c - 1).
(* the last position of the list whose digit stands for place k *)
Fixpoint last_pos (n : nat) (l : list Z) (k : nat) : option nat :=
  match l with
  | [] => None
  | c :: t => match last_pos n t k with Some j => Some (S j) | None => if (place n c =? k)%nat then Some O else None end
  end.
