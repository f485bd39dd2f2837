(* Regular expressions as relations, and the reading of the strings of compute. *)
From Coq Require Import Ascii String.
From Coq Require Import List ZArith Bool Lia.
From Verif Require Import Base Fld Compute Symm Str GenSpec GenThm Parse ParseSpec ParseChars Regex RegexThm Text TextSpec.
Import ListNotations.
Open Scope Z_scope.

