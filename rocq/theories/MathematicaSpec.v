(* How numbers and momenta are written in Mathematica. *)
From Coq Require Import Ascii String.
From Coq Require Import List ZArith Bool.
From Verif Require Import Base Str Mathematica.
Import ListNotations.
Open Scope Z_scope.

(* a decimal number: a sign, the digits before and after the point, and perhaps an exponent *)
Record decimal := Dec { d_neg : bool; d_int : pystr; d_frac : option pystr; d_exp : option (bool * pystr) }.
Definition some_digits (u : pystr) : Prop := u <> [] /\ Forall (fun c => 48 <= c <= 57) u.
Definition decimal_ok (x : decimal) : Prop :=
  some_digits (d_int x) /\ match d_frac x with Some u => some_digits u | None => True end /\ match d_exp x with Some (_, u) => some_digits u | None => True end.
(* how python and Mathematica write it; they differ in the mark of the exponent *)
Definition written (mark : string) (x : decimal) : pystr :=
  (if d_neg x then lit "-" else []) ++ d_int x ++ match d_frac x with Some u => lit "." ++ u | None => [] end ++
  match d_exp x with Some (n, u) => lit mark ++ (if n then lit "-" else lit "+") ++ u | None => [] end.
Definition python := written "e".
Definition wolfram := written "*^".
(* a complex number *)
Definition complex := (decimal * decimal)%type.
Definition complex_ok (z : complex) : Prop := decimal_ok (fst z) /\ decimal_ok (snd z).
Definition given (z : complex) : cnum := CN (python (fst z)) (python (snd z)).
Definition wolfram_complex (z : complex) : pystr := wolfram (fst z) ++ lit "+" ++ wolfram (snd z) ++ lit "I".
(* the texts, separated by a comma and a space *)
Fixpoint commas (l : list pystr) : pystr := match l with [] => [] | [t] => t | t :: l' => t ++ lit ", " ++ commas l' end.
(* lines *)
Fixpoint lines (l : list pystr) : pystr := match l with [] => [] | [t] => t | t :: l' => t ++ [10] ++ lines l' end.
(* a momentum with its number; [n] is the number of digits *)
Definition declares (n : Z) (i : Z) (p : list complex) : pystr :=
  lit "DeclareSpinorMomentum[" ++ dec i ++ lit ", {" ++ commas (map (fun z => lit "SetPrecision[" ++ wolfram_complex z ++ lit ", " ++ dec n ++ lit "]") p) ++ lit " }]".
Fixpoint numbered {A B} (f : Z -> A -> B) (i : Z) (l : list A) : list B := match l with [] => [] | x :: l' => f i x :: numbered f (i + 1) l' end.
(* a complex number of python: in brackets, the imaginary part with j; a real part of zero is left out *)
Inductive python_complex : pystr -> pystr -> Prop :=
| both x y : decimal_ok x -> decimal_ok y -> python_complex (lit "(" ++ python x ++ (if d_neg y then [] else lit "+") ++ python y ++ lit "j)") (lit "(" ++ wolfram x ++ (if d_neg y then [] else lit "+") ++ wolfram y ++ lit "I)")
| imaginary y : decimal_ok y -> python_complex (python y ++ lit "j") (wolfram y ++ lit "I").
Definition declares_spinors (i : Z) (a b c d : pystr) : pystr :=
  lit "DeclareSpinorMomentum[Sp[" ++ dec i ++ lit "], {{" ++ a ++ lit "}, {" ++ b ++ lit "}}, {{" ++ c ++ lit ", " ++ d ++ lit "}}]".
(* the assignments of the two components of a spinor of each leg; [number] is how numbers are written *)
Definition assigns (name : string) (number : complex -> pystr) (s : list (complex * complex)) : pystr :=
  concat (numbered (fun i p => lit name ++ dec i ++ lit ",1] = " ++ number (fst p) ++ lit ";" ++ [10] ++ lit name ++ dec i ++ lit ",2] = " ++ number (snd p) ++ lit ";" ++ [10]) 1 s).
Definition lambda_name : string := "Subscript[\[Lambda], ".
Definition lambda_bar_name : string := "Subscript[\!\(\*OverscriptBox[\(\[Lambda]\), \(_\)]\), ".
