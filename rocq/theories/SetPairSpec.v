(* Specification vocabulary for SetPair.v and Variety.v. *)
From Coq Require Import List ZArith Bool.
From Verif Require Import Base Fld Particle ParticleSpec Index Phase PhaseSpec Arcs Compute SetOne SetSpec SetPair.
Import ListNotations.
Section Spec.
Context {K : Fld}.
Open Scope fld_scope.
(* momentum is conserved and every leg is massless *)
Definition on_shell_point (s : ps K) : Prop := total_mom s = mzero /\ Forall (fun p => lsq p = 0) s.
(* the value is v or -v *)
Definition plus_minus (x : result K) (v : K) : Prop := x = Ok v \/ x = Ok (- v).
(* two invariants have their targets; only the legs in T were changed *)
Record made2 (s s' : ps K) (t1 : target) (v1 : K) (t2 : target) (v2 : K) (T : list Z) : Prop := {
  made2_first : c_target s' t1 = Ok v1;
  made2_second : c_target s' t2 = Ok v2;
  made2_total : total_mom s' = mzero;
  made2_fresh : Forall (fun p => fresh p) s';
  made2_length : length s' = length s;
  made2_rest : forall k, ~ In k T -> getitem s' k = getitem s k
}.
(* the first component of <k| or [k| *)
Definition first_of (angle : bool) (s : ps K) (k : Z) : option K := if angle then first_r s k else first_l s k.
(* the label that stands first when the pair is set: a shared one of two brackets of the same kind *)
Definition lead (same : bool) (a b c d : Z) : Z := if (same && (zmem b [c; d] && negb (zmem a [c; d])))%bool then b else a.
(* two brackets of the same kind with the same two labels *)
Definition same_bracket (an1 : bool) (a b : Z) (an2 : bool) (c d : Z) : Prop := an1 = an2 /\ ((a = c /\ b = d) \/ (a = d /\ b = c)).
(* the legs used to restore momentum conservation leave both brackets alone *)
Definition undisturbed (n : nat) (an1 : bool) (a b : Z) (an2 : bool) (c d : Z) : Prop :=
  match free_legs n [a; b; c; d] with
  | _ :: _ :: _ => True
  | [_] => an1 = an2 \/ ~ In a [c; d]
  | [] => an1 = false /\ (an2 = false \/ (~ In a [c; d] /\ ~ In b [c; d]))
  end.
(* what variety promises about the values: up to sign in characteristic 0, zero otherwise *)
Definition good_values (char0 : bool) (value : ps K -> target -> result K) (s : ps K) (ts : list target) (vs : list K) : Prop :=
  if char0 then Forall2 (fun t v => plus_minus (value s t) v) ts vs else Forall (fun t => value s t = Ok 0) ts.
(* never changes the number of particles *)
Definition keeps_length {A} (m : QM (K := K) A) : Prop := forall s, length (fst (m s)) = length s.
End Spec.
