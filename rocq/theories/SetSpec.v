(* Specification vocabulary for the setters of one invariant. *)
From Coq Require Import List ZArith Bool.
From Verif Require Import Base Fld Particle ParticleSpec Index Phase PhaseSpec Arcs Compute ComputeSpec SetOne.
Import ListNotations.

(* the legs that do not occur in l, in increasing order *)
Definition free_legs (n : nat) (l : list Z) : list Z := filter (fun k => negb (zmem k l)) (upto n).
(* labels of existing legs *)
Definition legs_of {A} (s : list A) (l : list Z) : Prop := forall k, In k l -> (1 <= k <= Z.of_nat (length s))%Z.

(* the sign of a list of distinct numbers as a permutation of its sorted version; 0 with repetitions *)
Fixpoint sgn_from (x : Z) (l : list Z) : Z := match l with [] => 1%Z | y :: l' => (Z.sgn (y - x) * sgn_from x l')%Z end.
Fixpoint sgn_of (l : list Z) : Z := match l with [] => 1%Z | x :: l' => (sgn_from x l' * sgn_of l')%Z end.
(* the sign of a, b, c, d and the fifth label *)
Definition sign5 (a b c d : Z) : Z := sgn_of [a; b; c; d; 15 - a - b - c - d]%Z.

(* the string <a|m1|...|mk|d> whose entries are sums of legs *)
Definition chain_t (o : obr) (a : Z) (ms : list (list Z)) (d : Z) (c : cbr) : target := TInv (IChain o a (map ent ms) d c).
(* the ends are not solved for: another mode is asked for, or both labels occur in the middle *)
Definition ends_unused (a : Z) (ms : list (list Z)) (d : Z) (mode : Z) : Prop := mode <> 1%Z \/ (In a (concat ms) /\ In d (concat ms)).
(* s_ijk is set through <i|jk|i] in mode 1 and [i|jk|i> in mode 2 *)
Definition sijk_o (mode : Z) : obr := if Z.eqb mode 1 then OAng else OSq.
Definition sijk_c (mode : Z) : cbr := if Z.eqb mode 1 then CSq else CAng.

Section Spec.
Context {K : Fld}.
Open Scope fld_scope.

(* the point s' was made from s by changing only legs in T; the target has the value X,
   momentum is conserved and every leg is massless with consistent representations *)
Record made (s s' : ps K) (t : target) (X : K) (T : list Z) : Prop := {
  made_value : c_target s' t = Ok X;
  made_total : total_mom s' = mzero;
  made_fresh : Forall (fun p => fresh p) s';
  made_length : length s' = length s;
  made_rest : forall k, ~ In k T -> getitem s' k = getitem s k
}.
Definition keeps_r (s s' : ps K) (k : Z) : Prop := forall p p', getitem s k = Ok p -> getitem s' k = Ok p' -> r_d p' = r_d p.
Definition keeps_l (s s' : ps K) (k : Z) : Prop := forall p p', getitem s k = Ok p -> getitem s' k = Ok p' -> l_d p' = l_d p.
(* the first component of <k| and of [k| *)
Definition first_r (s : ps K) (k : Z) : option K := match getitem s k with Ok p => option_map e0 (r_u p) | _ => None end.
Definition first_l (s : ps K) (k : Z) : option K := match getitem s k with Ok p => option_map e0 (l_d p) | _ => None end.
Definition nz (x : result K) : Prop := exists y, x = Ok y /\ y <> 0.
(* a label of an existing leg; non-empty entries of existing legs *)
Definition inr (s : ps K) (k : Z) : Prop := (1 <= k <= Z.of_nat (length s))%Z.
Definition entries_ok (s : ps K) (ms : list (list Z)) : Prop := Forall (fun m => m <> [] /\ legs_of s m) ms.
(* the quadratic for <a|m|a>: leading coefficient and discriminant in the first component,
   with B the second one *)
Definition quad_lead (o : obr) (m : m2 K) : K := if oflag o then m10 m else m01 m.
Definition quad_disc (o : obr) (m : m2 K) (B X : K) : K :=
  let x := B * m00 m - B * m11 m in
  x * x + 2 * 2 * quad_lead o m * (B * B * (if oflag o then m01 m else m10 m) - X).
(* _set returned a good point changing only T, or found no square root, or divided by zero *)
Definition outcome cv so (s : ps K) (t : target) (X : K) (mode : Z) (T : list Z) : Prop :=
  (exists s', set_ cv so t X true mode s = (s', Ok tt) /\ made s s' t X T) \/
  snd (set_ cv so t X true mode s) = Err ValueError \/
  snd (set_ cv so t X true mode s) = Err ZeroDivisionError.
End Spec.
