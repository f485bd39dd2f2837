(* The value of an expression when its symbols have values. *)
From Coq Require Import List ZArith Bool.
From Verif Require Import Base Fld PartSubs.
Import ListNotations.
Section Spec.
Context {K : Fld} (int : Z -> K).
Open Scope fld_scope.
Fixpoint power (x : K) (n : nat) : K := match n with O => 1 | S n' => x * power x n' end.
(* [a] gives each symbol its value, [int] is the number of an integer *)
Definition product (a : Z -> K) (m : list (Z * nat)) : K := fold_right (fun xn v => power (a (fst xn)) (snd xn) * v) 1 m.
Definition value (a : Z -> K) (p : list (Z * list (Z * nat))) : K := fold_right (fun cm v => int (fst cm) * product a (snd cm) + v) 0 p.
(* the assignment after the symbols of d have got their values *)
Fixpoint updated (a : Z -> K) (d : list (Z * list (Z * list (Z * nat)))) (x : Z) : K :=
  match d with [] => a x | (y, p) :: d' => if (x =? y)%Z then value a p else updated a d' x end.
Definition component_value (a : Z -> K) (e : component K) : K := match e with CNum x => x | CExpr p => value a p end.
(* a power of one symbol with coefficient 1 *)
Definition bare_power (e : component K) : Prop := exists x n, e = CExpr [(1%Z, [(x, n)])] /\ n <> 1%nat.
End Spec.
(* the values of the four components of each leg *)
Definition point_values {K : Fld} (int : Z -> K) (a : Z -> K) (s : list ((component K * component K) * (component K * component K))) :=
  map (fun p => ((component_value int a (fst (fst p)), component_value int a (snd (fst p))), (component_value int a (fst (snd p)), component_value int a (snd (snd p))))) s.
(* no component is a power of one symbol *)
Definition no_powers {K : Fld} (s : list ((component K * component K) * (component K * component K))) : Prop :=
  forall r1 r2 l1 l2, In ((r1, r2), (l1, l2)) s -> ~ bare_power r1 /\ ~ bare_power r2 /\ ~ bare_power l1 /\ ~ bare_power l2.
