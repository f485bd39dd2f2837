(* Model of Particles.ijk_to_3Ks, Particles.m2s and Particles.ms. *)
From Coq Require Import List ZArith.
From Verif Require Import Base Fld Particle Index Phase Arcs Cluster.
Import ListNotations.

Section ThreeKs.
Context {K : Fld}.
Open Scope fld_scope.
Open Scope res_scope.

(* particles.py:471-472.  The lists are those of Arcs.v, with more turns of the loop
   than it can take on labels that are legs.  Simplification: the point has no internal
   masses (Masses.v has the effect of cluster on them). *)
Definition ijk_to_3Ks cv (s : ps K) (ijk : list Z) : result (ps K) :=
  x <-? arcs (S (length s)) (zlen s) ijk ;;
  let '(l0, l1, l2) := x in cluster cv [l0; l1; l2] s.

(* particle.py:480-481, particles.py:107-110 *)
Definition m2s (s : ps K) : list K := map lsq s.

(* particle.py:483-485.  Simplification: as for all of `field.sqrt` (Fld.v), a root that
   is not in the field is an error; over finite fields the code returns an element of
   the field extension. *)
Definition mass (p : particle K) : result K :=
  match fsqrt (lsq p) with Some y => Ok y | None => Err ValueError end.

(* particles.py:112-115 *)
Definition ms (s : ps K) : result (list K) := rmapM mass s.

End ThreeKs.
