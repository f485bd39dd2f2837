(* Specification of the names of the files of saved points. *)
From Coq Require Import Ascii String.
From Coq Require Import List ZArith Bool.
From Verif Require Import Base Symm Str.
Import ListNotations.
Open Scope Z_scope.

(* the name of a file without the number and the extension: angle brackets become A, square
   brackets S, bars V *)
Definition stem (invariant : pystr) : pystr :=
  match invariant with
  | [] => lit "NoLimit"
  | _ => flat_map (fun c => if (c =? 10216) || (c =? 10217) then lit "A" else if (c =? 91) || (c =? 93) then lit "S" else if c =? 124 then lit "V" else [c]) invariant
  end.
