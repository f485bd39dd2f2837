(* Entries of arrays and the bounds of slices. *)
From Coq Require Import List ZArith.
Import ListNotations.
Definition entry_at {A} (m : list (list A)) (a b : nat) : option A := match nth_error m a with Some r => nth_error r b | None => None end.
Definition start (o : option Z) : nat := match o with Some z => Z.to_nat z | None => O end.
Definition below (o : option Z) (n : nat) : Prop := match o with Some z => (Z.of_nat n < z)%Z | None => True end.
