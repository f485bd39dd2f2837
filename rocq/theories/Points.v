(* Model of the comparison != and the hash of points, lips/particles.py:38-98. *)
From Coq Require Import List ZArith Bool.
From Verif Require Import Base Fld Particle Index Phase.
Import ListNotations.

Section Points.
Context {K : Fld}.
(* Particles (particles.py:38-39) is a list and defines == (particles.py:89-94) but not !=, so that a != b is
   list.__ne__: different lengths differ, otherwise the first pair that is not == decides.  Particle
   (particle.py:60-65) defines no != either; there python inverts ==. *)
Fixpoint pairs_ne (s s' : ps K) : bool :=
  match s, s' with
  | p :: t, q :: t' => if p_eqb p q then pairs_ne t t' else negb (p_eqb p q)
  | _, _ => false
  end.
Definition ps_ne (s s' : ps K) : bool := if negb (length s =? length s')%nat then true else pairs_ne s s'.
(* hash(oP) of one leg; a leg that cannot be hashed raises AttributeError (particle.py:114) *)
Definition leg_hash (p : particle K) : result (hash_input (K := K)) := match p_hash p with HNone => Err AttributeError | h => Ok h end.
(* Particles.__hash__, particles.py:96-98: the tuple fed to hash(); the number it returns is not modelled *)
Definition ps_hash (s : ps K) : result (list (hash_input (K := K))) := rmapM leg_hash s.
End Points.
