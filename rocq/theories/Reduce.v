(* Model of lips/algebraic_geometry/particles_singular_variety.py:50-65: the spinors of a point are
   replaced by their images under a conversion of numbers, and everything else is recomputed. *)
From Coq Require Import List ZArith Bool.
From Verif Require Import Base Fld Particle Index Phase.
Import ListNotations.

Section Reduce.
Context {K L : Fld}.
Open Scope res_scope.
(* ModP(x) or PAdic(x, prime, digits, from_addition=True); a number that cannot be converted raises *)
Variable conv : K -> result L.

(* an array of two converted numbers, particles_singular_variety.py:53, 55, 61-62, 64-65 *)
Definition conv2 (v : v2 K) : result (v2 L) :=
  a <-? conv (e0 v) ;; b <-? conv (e1 v) ;; Ok (V2 a b).
(* The body of both loops, particles_singular_variety.py:52-55 and 60-65: _l_sp_d is replaced, l_sp_u
   follows, and the setter of r_sp_d recomputes the rest.  Simplification: between the two assignments
   the other attributes still hold old numbers; here they are empty, the setter overwrites them all.
   A spinor that is None cannot be indexed: TypeError. *)
Definition convert (p : particle K) : result (particle L) :=
  l <-? need_r (l_d p) ;; l' <-? conv2 l ;;
  r <-? need_r (r_d p) ;; r' <-? conv2 r ;;
  match bind (S := particle L) l_sp_d_to_l_sp_u (fun _ => assign_r_sp_d r')
          (mkP None None None (Some l') mzero mzero None None (spin p)) with
  | (q, Ok _) => Ok q
  | (_, Err e) => Err e
  end.
(* for oParticle in oParticles: padic_to_finite_field and finite_field_to_padic,
   particles_singular_variety.py:50-65 *)
Definition convert_all (s : ps K) : result (ps L) := rmapM convert s.
End Reduce.
