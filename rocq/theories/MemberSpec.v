(* Ideals of polynomials. *)
From Coq Require Import List ZArith Bool.
From Verif Require Import Base Fld Particle Phase Compute Str Ideal IdealSpec RatFun Analytic AnalyticSpec.
Import ListNotations.

Section Ideals.
Context {K : Fld}.
(* polynomials in the symbols *)
Inductive polynomial (m : nat) : tower K m -> Prop :=
| poly_const c : polynomial m (tconst m c)
| poly_sym j : (j < m)%nat -> polynomial m (sym m j)
| poly_add x y : polynomial m x -> polynomial m y -> polynomial m (x + y)%fld
| poly_mul x y : polynomial m x -> polynomial m y -> polynomial m (x * y)%fld.
(* the ideal generated by gs *)
Inductive generated (m : nat) (gs : list (tower K m)) : tower K m -> Prop :=
| gen_zero : generated m gs 0%fld
| gen_add c g x : polynomial m c -> In g gs -> generated m gs x -> generated m gs (c * g + x)%fld.
End Ideals.
(* the number of the pair i < j of legs: (1,2), (1,3), ..., (1,n), (2,3), ... *)
Definition pair_number (n i j : Z) : Z := ((i - 1) * (2 * n - i) / 2 + (j - i))%Z.
Section Zeros.
Context {K0 K : Fld} (R0 : K0 -> K -> Prop) (m : nat) (v : nat -> K) (w : pystr -> option K).
(* x - A = 0 for each of the pairs (A, x) *)
Definition converted (c : list (pystr * tower K0 m)) : Prop := forall A x, In (A, x) c -> exists y, subst R0 v m x y /\ w A = Some y.
(* g = 0 *)
Definition all_zero (gs : list (tower K0 m)) : Prop := forall g, In g gs -> subst R0 v m g 0%fld.
End Zeros.
(* the texts are those of polynomials in the invariants of n legs that vanish where all of c
   and g vanishes, as those in the ideal that is left after an elimination do *)
Definition consequences {K0 K : Fld} (R0 : K0 -> K -> Prop) (n m : nat) (c : list (pystr * tower K0 m)) (g : list (tower K0 m)) (ts : list pystr) : Prop :=
  forall t, In t ts -> exists e, t = text e /\ sum e /\ vars (invariant_var (Z.of_nat n)) e /\
  forall v w, converted R0 m v w c -> all_zero R0 m v g -> value w e = Some 0%fld.
(* the values of the brackets are those that w gives to A1, A2, ..., B1, B2, ... *)
Definition brackets_are {K : Fld} (t : ps K) (w : pystr -> option K) : Prop :=
  forall i j, (1 <= i < j)%Z -> (j <= Z.of_nat (length t))%Z -> exists a b,
    compute t (IA2 i j) = Ok (VS a) /\ w (var_name 65 (pair_number (Z.of_nat (length t)) i j)) = Some a /\
    compute t (IS2 i j) = Ok (VS b) /\ w (var_name 66 (pair_number (Z.of_nat (length t)) i j)) = Some b.
