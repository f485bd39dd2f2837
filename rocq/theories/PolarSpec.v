(* Specification of the polarisation contractions: polarisation vectors as slashed matrices
   with upper indices, and their contractions. *)
From Coq Require Import List ZArith Bool.
From Verif Require Import Base Fld Particle ParticleSpec.
Import ListNotations.

Section Spec.
Context {K : Fld}.
Open Scope fld_scope.
(* v.w for two slashed vectors: half the trace of v with the classical adjoint of w *)
Definition contract (v w : m2 K) : K := mtr (mmul v (adj w)) / 2.
(* the two polarisation vectors of the momentum r l with the reference vector rq lq:
   sqrt2 |r-bar] <q| / <q r> and sqrt2 |q] <r| / [l q] *)
Definition eps_plus (s2 : K) (rq r l : v2 K) : m2 K := mscale (s2 / vdot (raise_r rq) r) (outer (raise_r l) (raise_r rq)).
Definition eps_minus (s2 : K) (lq r l : v2 K) : m2 K := mscale (s2 / vdot l (raise_r lq)) (outer (raise_r lq) (raise_r r)).
(* the vector of one leg: the sign of the helicity is read from the symbol *)
Definition polarisation (s2 : K) (rq lq : v2 K) (h : Z) (r l : v2 K) : m2 K :=
  if (Z.eqb h 43 || Z.eqb h 112)%bool then eps_plus s2 rq r l else eps_minus s2 lq r l.
(* the product in the denominator of the vector *)
Definition ep_den (rq lq : v2 K) (h : Z) (r l : v2 K) : K :=
  if (Z.eqb h 43 || Z.eqb h 112)%bool then vdot (raise_r rq) r else vdot l (raise_r lq).
(* a particle with these spinors *)
Definition has_spinors (p : particle K) (r l : v2 K) : Prop := r_d p = Some r /\ l_d p = Some l /\ consistent p.
End Spec.
(* the symbols that are accepted, one per sign *)
Definition plain (h : Z) : Prop := h = 43%Z \/ h = 45%Z.
Definition letters (h : Z) : Prop := h = 112%Z \/ h = 109%Z.
Definition accepted (h : Z) : Prop := plain h \/ letters h.
(* all symbols of one style *)
Definition one_style (hs : list Z) : Prop := Forall plain hs \/ Forall letters hs.
