(* Specification vocabulary for points over two fields. *)
From Coq Require Import List ZArith Bool.
From Verif Require Import Base Fld Particle ParticleSpec Index Phase Compute Str Masses Parse Text Tensor.
Import ListNotations.

Section Spec.
Context {K L : Fld}.
Open Scope fld_scope.
Variable f : K -> result L.

(* f is reduction modulo a prime: it respects the operations wherever it is defined, and it is
   defined at the inverse of every number that it does not send to zero *)
Record place : Prop := {
  pl_1 : f 1 = Ok 1;
  pl_add : forall x y a b, f x = Ok a -> f y = Ok b -> f (x + y) = Ok (a + b);
  pl_mul : forall x y a b, f x = Ok a -> f y = Ok b -> f (x * y) = Ok (a * b);
  pl_opp : forall x a, f x = Ok a -> f (- x) = Ok (- a);
  pl_inv : forall x a, f x = Ok a -> a <> 0 -> f (finv x) = Ok (finv a)
}.

(* entry by entry *)
Definition red_v (v : v2 K) (w : v2 L) : Prop := f (e0 v) = Ok (e0 w) /\ f (e1 v) = Ok (e1 w).
Definition red_m (m : m2 K) (n : m2 L) : Prop :=
  f (m00 m) = Ok (m00 n) /\ f (m01 m) = Ok (m01 n) /\ f (m10 m) = Ok (m10 n) /\ f (m11 m) = Ok (m11 n).
(* the answers of compute *)
Definition red_val (v : val K) (w : val L) : Prop :=
  match v, w with
  | VS x, VS y => f x = Ok y
  | VRow x, VRow y | VCol x, VCol y => red_v x y
  | VMat x, VMat y => red_m x y
  | _, _ => False
  end.
(* the numbers of expressions: integers, fractions and floats are the same for both *)
Definition red_num (v : value K) (w : value L) : Prop :=
  match v, w with
  | VInt a, VInt b => a = b
  | VFrac a, VFrac b => a = b
  | VElt x, VElt y => f x = Ok y
  | VFloat, VFloat => True
  | _, _ => False
  end.
Definition red_answer (a : answer K) (b : answer L) : Prop :=
  match a, b with
  | AVal v, AVal w => red_val v w
  | ANum v, ANum w => red_num v w
  | _, _ => False
  end.
(* with arrays: entry by entry *)
Inductive red_wide : wval K -> wval L -> Prop :=
| red_XNum v w : red_num v w -> red_wide (XNum v) (XNum w)
| red_XArr m n : Forall2 (Forall2 red_num) m n -> red_wide (XArr m) (XArr n)
| red_XList l l' : Forall2 red_wide l l' -> red_wide (XList l) (XList l').
(* the same exception, or two values of which one is the image of the other *)
Definition red_result {A B} (R : A -> B -> Prop) (x : result A) (y : result B) : Prop :=
  match x, y with Ok a, Ok b => R a b | Err e, Err e' => e = e' | _, _ => False end.
(* the same, unless a denominator becomes zero *)
Definition red_upto {A B} (R : A -> B -> Prop) (x : result A) (y : result B) : Prop :=
  y = Err ZeroDivisionError \/ red_result R x y.
(* the two spinors of the image, and a momentum that is their product *)
Definition red_spinors (p : particle K) (q : particle L) : Prop :=
  exists r l r' l', r_d p = Some r /\ l_d p = Some l /\ r_d q = Some r' /\ l_d q = Some l' /\
    red_v r r' /\ red_v l l' /\ spin q = spin p.
(* the masses of the point *)
Definition red_mass (v : mval K) (w : mval L) : Prop :=
  match v, w with MNum x, MNum y => f x = Ok y | MStr t, MStr u => t = u | _, _ => False end.
Definition red_masses (A : dict (mval K)) (B : dict (mval L)) : Prop :=
  Forall2 (fun x y => fst x = fst y /\ red_mass (snd x) (snd y)) A B.
(* every entry of every spinor can be converted *)
Definition convertible (p : particle K) : Prop :=
  exists r l, r_d p = Some r /\ l_d p = Some l /\
    (exists a, f (e0 r) = Ok a) /\ (exists a, f (e1 r) = Ok a) /\ (exists a, f (e0 l) = Ok a) /\ (exists a, f (e1 l) = Ok a).
End Spec.
