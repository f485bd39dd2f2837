(* Specification vocabulary for SetPairMore.v: which spinors a string is made of. *)
From Coq Require Import List ZArith Bool.
From Verif Require Import Base Fld Particle ParticleSpec Index Phase PhaseSpec Arcs Compute ComputeSpec SetOne SetSpec SetPair SetPairSpec.
Import ListNotations.

(* restoring momentum conservation with axis 2 changes the square spinors of two legs, with
   axis 1 the angle spinors.  A leg may be changed if the string does not contain that spinor
   of it. *)
Definition square_changed (axis : Z) : bool := Z.eqb axis 2.
(* '<a|b>' or '[a|b]' *)
Definition spared_two (angle : bool) (a b : Z) (axis k : Z) : Prop := In k [a; b] -> angle = square_changed axis.
(* '<s|m1|...|mk|e>' *)
Definition angle_o (o : obr) : bool := match o with OAng => true | _ => false end.
Definition angle_c (c : cbr) : bool := match c with CAng => true | _ => false end.
Definition spared_chain (o : obr) (s : Z) (ms : list (list Z)) (e : Z) (c : cbr) (axis k : Z) : Prop :=
  ~ In k (concat ms) /\ (k = s -> angle_o o = square_changed axis) /\ (k = e -> angle_c c = square_changed axis).
(* '<s|(m)|e]' or '[s|(m)|e>': a leg that is also the end next to it drops out of the sum *)
Definition spared_three (angle : bool) (s : Z) (m : list Z) (e : Z) (axis k : Z) : Prop :=
  (In k m -> k = s \/ k = e) /\ (k = s -> angle = square_changed axis) /\ (k = e -> angle = negb (square_changed axis)).
(* two legs and an axis *)
Definition choice (n : nat) (p q axis : Z) : Prop :=
  (1 <= p <= Z.of_nat n)%Z /\ (1 <= q <= Z.of_nat n)%Z /\ p <> q /\ (axis = 1%Z \/ axis = 2%Z).

Section Spec.
Context {K : Fld}.
Open Scope fld_scope.
(* momentum conservation was restored, or division by zero; the strings keep their values *)
Definition restored (s s' : ps K) (p q : Z) (ts : list target) : Prop :=
  total_mom s' = mzero /\ Forall (fun x => fresh x) s' /\ length s' = length s /\
  (forall k, k <> p -> k <> q -> getitem s' k = getitem s k) /\
  Forall (fun t => c_target s' t = c_target s t) ts.
End Spec.

(* a string '<s|m1|...|mk|e>' whose entries are sums of different legs and whose brackets alternate *)
Definition good_chain (n : nat) (o : obr) (s : Z) (ms : list (list Z)) (e : Z) (c : cbr) : Prop :=
  o <> OLt /\ c = end_of o (length ms) /\ ms <> [] /\
  Forall (fun m => m <> [] /\ NoDup m /\ (forall k, In k m -> (1 <= k <= Z.of_nat n)%Z)) ms /\
  (1 <= s <= Z.of_nat n)%Z /\ (1 <= e <= Z.of_nat n)%Z.
Section Same.
Context {K : Fld}.
Open Scope fld_scope.
(* the two strings have the same value up to sign at every massless momentum-conserving point *)
Definition same_value (n : nat) (t t' : target) : Prop :=
  forall s : ps K, length s = n -> Forall (fun x => fresh x) s -> total_mom s = mzero ->
    exists v, c_target s t = Ok v /\ plus_minus (c_target s t') v.
End Same.

(* '<s|(m)|e]' or '[s|(m)|e>' with a sum of different legs *)
Definition good_three (n : nat) (s : Z) (m : list Z) (e : Z) : Prop :=
  m <> [] /\ NoDup m /\ (forall k, In k m -> (1 <= k <= Z.of_nat n)%Z) /\ (1 <= s <= Z.of_nat n)%Z /\ (1 <= e <= Z.of_nat n)%Z.
Section Made.
Context {K : Fld}.
Open Scope fld_scope.
(* as made2, the second value up to sign *)
Record made2_sign (s s' : ps K) (t1 : target) (v1 : K) (t2 : target) (v2 : K) (T : list Z) : Prop := {
  ms_first : plus_minus (c_target s' t1) v1;
  ms_second : plus_minus (c_target s' t2) v2;
  ms_total : total_mom s' = mzero;
  ms_fresh : Forall (fun p => fresh p) s';
  ms_length : length s' = length s;
  ms_rest : forall k, ~ In k T -> getitem s' k = getitem s k
}.
End Made.

(* '<s|m1|...|mk|e>' read backwards *)
Definition backwards (x : obr * Z * list (list Z) * Z * cbr) : obr * Z * list (list Z) * Z * cbr :=
  let '(o, s, ms, e, c) := x in
  ((if angle_c c then OAng else OSq), e, rev (map (@rev Z) ms), s, (if angle_o o then CAng else CSq)).
(* the string is read backwards if it starts with the kind of '<a|b>' and either ends with the
   other one or starts at a *)
Definition turns (angle : bool) (a : Z) (o : obr) (s e : Z) (c : cbr) : bool :=
  (Bool.eqb (angle_o o) angle && (negb (Bool.eqb (angle_c c) angle) || (Z.eqb a s && negb (Z.eqb a e))))%bool.
