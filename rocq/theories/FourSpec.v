(* Four brackets <a|I|J|d> and [a|I|J|d] as functions of a phase space point, and the ways in
   which they are products of shorter invariants or agree with each other. *)
From Coq Require Import List ZArith Bool Sorted.
From Verif Require Import Base Fld Particle ParticleSpec Index Phase PhaseSpec Compute ComputeSpec Gen GenSpec.
Import ListNotations.
Open Scope Z_scope.

(* the sum of the legs in a non-empty list *)
Definition sum_of (I : list Z) : entry := esum (hd 0 I) (tl I).
(* invariants with at most one entry: <i|j>, [i|j], s_I and <i|I|j] *)
Inductive short := SAng (i j : Z) | SSq (i j : Z) | SMan (I : list Z) | SThree (i : Z) (I : list Z) (j : Z).

Section Spec.
Context {K : Fld}.
Open Scope fld_scope.
(* a point with n massless legs whose momenta add up to zero *)
Definition conserving (n : Z) (s : ps K) : Prop :=
  Z.of_nat (length s) = n /\ sound s /\ Forall (fun p => reproduces p) s /\ total_mom s = mzero.
(* <a|I|J|d> (ang) or [a|I|J|d] *)
Definition four (s : ps K) (ang : bool) (a : Z) (I J : list Z) (d : Z) : result K :=
  c_chain s (if ang then OAng else OSq) a [sum_of I; sum_of J] d (if ang then CAng else CSq).
Definition four_of (s : ps K) (b : brk) : result K := four s (b_ang b) (b_i b) (nth 0 (b_mid b) []) (nth 1 (b_mid b) []) (b_j b).
Definition short_val (s : ps K) (x : short) : result K :=
  match x with
  | SAng i j => c_A2 s i j | SSq i j => c_S2 s i j | SMan l => c_S s l
  | SThree i l j => c_chain s OAng i [sum_of l] j CSq
  end.
(* up to the sign *)
Definition signed (neg : bool) (x : K) : K := if neg then - x else x.
End Spec.

(* the legs of a shorter invariant are among 1, ..., n and the sets are sets *)
Definition proper (n : Z) (x : short) : Prop :=
  match x with
  | SAng i j => 1 <= i <= n /\ 1 <= j <= n | SSq i j => 1 <= i <= n /\ 1 <= j <= n
  | SMan l => legset n l /\ l <> [] | SThree i l j => 1 <= i <= n /\ 1 <= j <= n /\ legset n l /\ l <> []
  end.
(* <a|I|J|d> is up to a sign the product of x and y, for every field and every point *)
Definition product_of (n : Z) (ang : bool) (a : Z) (I J : list Z) (d : Z) (x y : short) : Prop :=
  exists neg : bool, forall (K : Fld) (s : ps K), conserving n s ->
  exists v w, short_val s x = Ok v /\ short_val s y = Ok w /\ four s ang a I J d = Ok (signed neg (fmul v w)).
Definition is_product (n : Z) (ang : bool) (a : Z) (I J : list Z) (d : Z) : Prop := exists x y, proper n x /\ proper n y /\ product_of n ang a I J d x y.
(* what can be written for I beside the leg a: the same legs, or all the others but a *)
Definition beside_as (n a : Z) (I I' : list Z) : Prop := I' = I \/ other_legs n (a :: I) I'.
(* J has the legs of I and the leg k, which I has not *)
Definition with_leg (k : Z) (I J : list Z) : Prop := ~ In k I /\ forall x, In x J <-> x = k \/ In x I.
(* the two parts, each possibly replaced by the others, are equal; or differ by one leg and the
   ends are the same; or differ by the leg at the other end *)
Definition reducible (n a : Z) (I J : list Z) (d : Z) : Prop :=
  exists I' J', beside_as n a I I' /\ beside_as n d J J' /\ I' <> [] /\ J' <> [] /\
  (I' = J' \/ (a = d /\ exists k, with_leg k I' J' \/ with_leg k J' I') \/ with_leg d J' I' \/ with_leg a I' J').
(* the legs other than a are shared out among I, J and L *)
Definition three_shares (n a : Z) (I J L : list Z) : Prop :=
  legset n I /\ legset n J /\ legset n L /\ 1 <= a <= n /\ ~ In a I /\ ~ In a J /\ ~ In a L /\
  forall x, 1 <= x <= n -> x <> a -> (In x I /\ ~ In x J /\ ~ In x L) \/ (~ In x I /\ In x J /\ ~ In x L) \/ (~ In x I /\ ~ In x J /\ In x L).
(* b and b' have the same ends and one part in common; the legs of the two other parts, of the
   common part and the end share out all legs *)
Definition doubles (n : Z) (b b' : brk) : Prop :=
  b_ang b' = b_ang b /\ b_i b' = b_i b /\ b_j b' = b_j b /\ b_i b = b_j b /\
  exists I J L, three_shares n (b_i b) I J L /\ b_mid b = [I; J] /\ (b_mid b' = [I; L] \/ b_mid b' = [L; J]).
(* I has the leg k, J has not, and all other legs of I are legs of J *)
Definition all_but (k : Z) (I J : list Z) : Prop := In k I /\ ~ In k J /\ forall x, In x I -> x = k \/ In x J.
(* what the first loop of the generation takes for a product *)
Definition taken_for_product (n a : Z) (I J : list Z) (d : Z) : Prop :=
  exists I' J', beside_as n a I I' /\ beside_as n d J J' /\
  (I' = J' \/ (a = d /\ exists k, with_leg k I J' \/ with_leg k J I') \/ all_but d I' J' \/ all_but a J' I').
