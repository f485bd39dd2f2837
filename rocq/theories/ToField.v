(* Model of Particle.to_field / Particles.to_field. *)
From Coq Require Import List ZArith Bool.
From Verif Require Import Base Fld Particle Index Phase.
Import ListNotations.

Section ToField.
Context {K K' : Fld}.
Variable field : K -> result K'.   (* calling the field on a number; may raise *)
Open Scope res_scope.

(* numpy.vectorize(field)(v) *)
Definition v_to_field (v : v2 K) : result (v2 K') :=
  a <-? field (e0 v) ;; b <-? field (e1 v) ;; Ok (V2 a b).
(* particle.py:54-58.  field(None) raises.  Simplification: the new particle starts
   blank; every attribute except spin_index is overwritten by the l_sp_d setter. *)
Definition p_to_field (p : particle K) : result (particle K') :=
  match r_d p, l_d p with
  | Some r, Some l => r' <-? v_to_field r ;; l' <-? v_to_field l ;;
      let '(q, res) := init_spinors r' l' (mkP None None None None mzero mzero None None (spin p)) in
      rmap (fun _ => q) res
  | _, _ => Err TypeError
  end.
(* particles.py:76-79 *)
Definition ps_to_field (s : ps K) : result (ps K') := rmapM p_to_field s.
End ToField.
