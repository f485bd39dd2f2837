(* What it means to replace the keys of a dictionary in a text. *)
From Coq Require Import List ZArith.
Import ListNotations.
Open Scope Z_scope.

Definition begins (k t : list Z) : Prop := exists r, t = k ++ r.
(* from left to right: the first key of the dictionary with which the text begins is replaced, a
   character at which no key begins is kept *)
Inductive replaced (d : list (list Z * list Z)) : list Z -> list Z -> Prop :=
| replaced_end : replaced d [] []
| replaced_key pre k v post t u : d = pre ++ (k, v) :: post -> k <> [] -> (forall e, In e pre -> ~ begins (fst e) (k ++ t)) -> replaced d t u -> replaced d (k ++ t) (v ++ u)
| replaced_not c t u : (forall e, In e d -> ~ begins (fst e) (c :: t)) -> replaced d t u -> replaced d (c :: t) (c :: u).
