(* Polynomials as they are written, and their values. *)
From Coq Require Import Ascii String.
From Coq Require Import List ZArith Bool.
From Coq Require InitialRing.
From Verif Require Import Base Fld Str.
Import ListNotations.
Open Scope Z_scope.

(* a variable is a letter and a number; powers are written ^ or ** *)
Inductive poly :=
| Num (n : Z) | Var (c i : Z) | Par (a : poly) | Pow (stars : bool) (a : poly) (n : Z) | Neg (a : poly)
| Mul (a b : poly) | Add (a b : poly) | Sub (a b : poly).
Fixpoint text (e : poly) : pystr :=
  match e with
  | Num n => dec n
  | Var c i => c :: dec i
  | Par a => 40 :: text a ++ [41]
  | Pow st a n => text a ++ (if st then [42; 42] else [94]) ++ dec n
  | Neg a => 45 :: text a
  | Mul a b => text a ++ 42 :: text b
  | Add a b => text a ++ 43 :: text b
  | Sub a b => text a ++ 45 :: text b
  end.
(* enough parentheses: sums of signed products of powers of atoms *)
Inductive atom : poly -> Prop :=
| atom_num n : 0 <= n -> atom (Num n)
| atom_var c i : 0 <= i -> atom (Var c i)
| atom_par a : sum a -> atom (Par a)
with factor : poly -> Prop :=
| factor_atom a : atom a -> factor a
| factor_pow st a n : atom a -> 0 <= n -> factor (Pow st a n)
with term : poly -> Prop :=
| term_factor a : factor a -> term a
| term_mul a b : term a -> factor b -> term (Mul a b)
with sum : poly -> Prop :=
| sum_term a : term a -> sum a
| sum_neg a : term a -> sum (Neg a)
| sum_add a b : sum a -> term b -> sum (Add a b)
| sum_sub a b : sum a -> term b -> sum (Sub a b).
(* the variables that occur *)
Fixpoint vars (P : Z -> Z -> Prop) (e : poly) : Prop :=
  match e with
  | Num _ => True
  | Var c i => P c i
  | Par a | Neg a | Pow _ a _ => vars P a
  | Mul a b | Add a b | Sub a b => vars P a /\ vars P b
  end.
Section Value.
Context {K : Fld}.
Variable at_ : pystr -> option K.            (* the values of the variables *)
Definition whole (z : Z) : K := InitialRing.gen_phiZ f0 f1 fadd fmul fopp z.
Fixpoint power (x : K) (n : nat) : K := match n with O => f1 | S n' => (x * power x n')%fld end.
Fixpoint value (e : poly) : option K :=
  match e with
  | Num n => Some (whole n)
  | Var c i => at_ (c :: dec i)
  | Par a => value a
  | Pow _ a n => option_map (fun x => power x (Z.to_nat n)) (value a)
  | Neg a => option_map fopp (value a)
  | Mul a b => match value a, value b with Some x, Some y => Some (x * y)%fld | _, _ => None end
  | Add a b => match value a, value b with Some x, Some y => Some (x + y)%fld | _, _ => None end
  | Sub a b => match value a, value b with Some x, Some y => Some (x - y)%fld | _, _ => None end
  end.
End Value.
(* homogeneous polynomials *)
Inductive degree : poly -> Z -> Prop :=
| degree_num n : degree (Num n) 0
| degree_var c i : degree (Var c i) 1
| degree_par a d : degree a d -> degree (Par a) d
| degree_pow st a n d : degree a d -> degree (Pow st a n) (n * d)
| degree_neg a d : degree a d -> degree (Neg a) d
| degree_mul a b d d' : degree a d -> degree b d' -> degree (Mul a b) (d + d')
| degree_add a b d : degree a d -> degree b d -> degree (Add a b) d
| degree_sub a b d : degree a d -> degree b d -> degree (Sub a b) d.
(* the variables a1, b1, c1, d1, ..., dn, and A1, ..., B1, ... *)
Definition covariant_var (n c i : Z) : Prop := 97 <= c <= 100 /\ 1 <= i <= n.
Definition invariant_var (n c i : Z) : Prop := (c = 65 \/ c = 66) /\ 1 <= i <= n * (n - 1) / 2.
