(* Specification vocabulary for the names of masses and for the sets that hold them. *)
From Coq Require Import List ZArith Bool.
From Verif Require Import Str.
Import ListNotations.
Open Scope Z_scope.

(* m, M or the greek mu *)
Definition mass_letter (c : Z) : Prop := c = 109 \/ c = 77 \/ c = 956.
(* A..Z and a..z *)
Definition latin (c : Z) : Prop := 65 <= c <= 90 \/ 97 <= c <= 122.
(* 0..9 *)
Definition decimal_digit (c : Z) : Prop := 48 <= c <= 57.
(* m, perhaps an underscore, letters, digits *)
Definition mass_text (t : pystr) : Prop :=
  exists c (underscore : bool) letters numbers,
    t = c :: (if underscore then [95] else []) ++ letters ++ numbers /\ mass_letter c /\ Forall latin letters /\ Forall decimal_digit numbers.
