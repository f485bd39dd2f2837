(* Model of Particles.randomise_twistor, lips/particles.py:131-137, and of the twistor
   methods of one particle, lips/particle.py:454-467.
   Simplifications: the random numbers are given as a list, the pair (z[:2], z[2:]) for each
   particle; the state left behind by a call that raises is not modelled, only the
   exception; the four-vector is not updated in place (particle.py:465), it is built and
   then assigned. *)
From Coq Require Import List ZArith Bool.
From Verif Require Import Base Fld Particle Phase.
Import ListNotations.

Section Twistor.
Context {K : Fld}.
Open Scope fld_scope.
Open Scope res_scope.
Notation particle := (particle K).

(* an array divided by a number, particle.py:460 *)
Definition mdivE (m : m2 K) (d : K) : result (m2 K) :=
  if feqb d 0 then Err ZeroDivisionError else Ok (M2 (m00 m / d) (m01 m / d) (m10 m / d) (m11 m / d)).
(* an attribute that may be None, used in an operation of arrays (particle.py:460) *)
Definition needR {A} (o : option A) : result A := match o with Some a => Ok a | None => Err TypeError end.
(* self[k + 1] of a list of particles, or of the attributes of its elements, particles.py:135,137 *)
Definition at_ {A} (l : list A) (k : nat) : result A := match nth_error l k with Some a => Ok a | None => Err IndexError end.

(* particle.py:454-456, without the assignment of _mu *)
Definition randomise_twist (z : v2 K * v2 K) (p : particle) : result particle :=
  match assign_r_sp_d (fst z) p with (q, Ok _) => Ok q | (_, Err e) => Err e end.
(* particle.py:458-460: x = (mu_i r_u_j - mu_j r_u_i) / (r_u_j r_d_i) *)
Definition comp_twist_x (p : particle) (mu : v2 K) (other : particle) (mu' : v2 K) : result (m2 K) :=
  ru' <-? needR (r_u other) ;; ru <-? needR (r_u p) ;; rd <-? needR (r_d p) ;;
  mdivE (msub (outer mu ru') (outer mu' ru)) (vdot ru' rd).
(* particle.py:462-466; self._four_mom[i] = ... fails when there is no four-momentum, the
   Pauli matrices have complex entries *)
Definition twist_x_to_mom (cv : convention) (x x' : m2 K) (p : particle) : result particle :=
  v <-? needR (fm p) ;; i <-? needR fimag ;;
  let c k := mtr (mmul (Pauli i k) (msub x x')) / 2 in
  match assign_four_mom cv (V4 (c 0%nat) (c 1%nat) (c 2%nat) (c 3%nat)) p with (q, Ok _) => Ok q | (_, Err e) => Err e end.
(* particles.py:131-137 *)
Definition randomise_twistor (cv : convention) (zs : list (v2 K * v2 K)) (s : ps K) : result (ps K) :=
  let n := length s in
  s1 <-? rmapM (fun zp => randomise_twist (fst zp) (snd zp)) (combine zs s) ;;
  xs <-? rmapM (fun k =>
           p <-? at_ s1 k ;; z <-? at_ zs k ;;
           p' <-? at_ s1 ((k + 1) mod n)%nat ;; z' <-? at_ zs ((k + 1) mod n)%nat ;;
           comp_twist_x p (snd z) p' (snd z')) (seq 0 n) ;;
  rmapM (fun k => p <-? at_ s1 k ;; x <-? at_ xs k ;; x' <-? at_ xs ((k + 1) mod n)%nat ;; twist_x_to_mom cv x x' p) (seq 0 n).
End Twistor.
