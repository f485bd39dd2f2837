(* Points whose spinor components are symbols: make_analytical_d (particles.py:194-222), the
   generators of LipsIdeal (algebraic_geometry/covariant_ideal.py:19-53) and update_particles
   (algebraic_geometry/particles_singular_variety.py:68-72), with which _singular_variety
   (particles_singular_variety.py:15-38) puts the solution it was given into a point. *)
From Coq Require Import Ascii String.
From Coq Require Import List ZArith Bool.
From Verif Require Import Base Fld Particle Index Phase Compute Str Gen Ideal RatPoly RatFun.
Import ListNotations.

(* expressions in m symbols over the numbers K; symbols of particles.py:198-201 *)
Fixpoint tower (K : Fld) (m : nat) : Fld := match m with O => K | S m' => RatFun (tower K m') end.
(* numbers as expressions *)
Fixpoint tconst {K : Fld} (m : nat) (x : K) : tower K m :=
  match m with O => x | S m' => rconst (tconst m' x) end.
(* the j-th symbol, j < m; the symbols of one particle are a, b, c, d in this order:
   lips_covariant_symbols, algebraic_geometry/tools.py:10-18 *)
Fixpoint sym {K : Fld} (m j : nat) : tower K m :=
  match m with O => f0 | S m' => if Nat.eqb j m' then rvar else rconst (sym m' j) end.
(* expr.is_number: no symbol in it; expressions of particles.py:198-222 *)
Fixpoint is_number {K : Fld} (m : nat) : tower K m -> bool :=
  match m with
  | O => fun _ => true
  | S m' => fun f => match rf_pair f with ([], _) => true | ([c], [_]) => is_number m' c | _ => false end
  end.

Section Make.
Context {K : Fld}.
Variable m : nat.
Notation L := (tower K m).
Open Scope res_scope.
(* indepVars[i * 4 + k] == 0, particles.py:203-210; true: the number is kept.  The component
   is a TypeError if the spinor is None. *)
Definition entry_at (indep : list bool) (j : nat) (x : result K) : result L :=
  match nth_error indep j with
  | None => Err IndexError
  | Some b => y <-? x ;; Ok (if b then tconst m y else sym m j)
  end.
(* the body of the loop, particles.py:202-222, for the particle number i (from 0).  The
   attributes that are not mentioned are overwritten by what follows.  Simplification: what an
   exception leaves behind is not modelled. *)
Definition analytical (indep : list bool) (i : nat) (p : particle K) : result (particle L) :=
  a <-? entry_at indep (i * 4 + 0) (rmap e0 (need_r (r_d p))) ;;
  b <-? entry_at indep (i * 4 + 1) (rmap e1 (need_r (r_d p))) ;;
  c <-? entry_at indep (i * 4 + 2) (rmap e0 (need_r (l_d p))) ;;
  d <-? entry_at indep (i * 4 + 3) (rmap e1 (need_r (l_d p))) ;;
  let q := mkP None (Some (V2 a b)) None (Some (V2 c d)) mzero mzero None None (spin p) in
  match (bind r_sp_d_to_r_sp_u (fun _ => bind l_sp_d_to_l_sp_u (fun _ => bind r1_sp_to_r2_sp (fun _ =>
         bind r1_sp_to_r2_sp_b (fun _ => four_mom_from_r2b))))) q with
  | (q', Ok _) => Ok q' | (_, Err e) => Err e
  end.
(* enumerate(self), particles.py:202 *)
Fixpoint analytical_from (indep : list bool) (i : nat) (s : ps K) : result (list (particle L)) :=
  match s with
  | [] => Ok []
  | p :: s' => q <-? analytical indep i p ;; rmap (cons q) (analytical_from indep (S i) s')
  end.
End Make.
(* particles.py:194-222 *)
Definition make_analytical_d {K : Fld} (indep : option (list bool)) (s : ps K) : result (ps (tower K (4 * length s))) :=
  analytical_from (4 * length s) (match indep with None => repeat false (4 * length s) | Some l => l end) 0 s.

(* flatten of an array, covariant_ideal.py:37-40 *)
Definition entries {K : Fld} (v : val K) : list K :=
  match v with
  | VS x => [x]
  | VRow u | VCol u => [e0 u; e1 u]
  | VMat m => [m00 m; m01 m; m10 m; m11 m]
  end.
(* sympy.Poly(expr) raises GeneratorsNeeded if there is no symbol in it; covariant_ideal.py:39-44 *)
Definition as_poly {K : Fld} {m : nat} (x : tower K m) : result (tower K m) := if is_number m x then Err OtherException else Ok x.
(* the generators of LipsIdeal from covariants, covariant_ideal.py:30-44; [s0] is the random
   point Particles(multiplicity).  Simplifications: generators are the expressions and not
   their texts; the covariants are single invariants. *)
Definition lips_generators {K : Fld} (s0 : ps K) (covariants : list inv) (momentum_conservation : bool) : result (list (tower K (4 * length s0))) :=
  (s <-? make_analytical_d None s0 ;;
   gs <-? rmapM (fun e => v <-? compute s e ;; rmapM as_poly (map (fun x => (2 * 2 * x)%fld) (entries v))) covariants ;;
   ms <-? (if momentum_conservation then rmapM as_poly (entries (VMat (total_mom s))) else Ok []) ;;
   Ok (concat gs ++ ms))%res.

Section Update.
Context {K : Fld}.
Open Scope mon_scope.
(* dictionary[f'c{i}'] *)
Definition dict_at {S : Type} (d : dict K) (c i : Z) : M S K :=
  match dict_get (var_name c i) d with Some x => ret x | None => raise KeyError end.
(* the body of the loop, particles_singular_variety.py:70-72 *)
Definition update_particle (d : dict K) (i : Z) : PM unit :=
  c <- dict_at d 99 i ;; d' <- dict_at d 100 i ;; modify (set_ld (Some (V2 c d'))) ;;
  l_sp_d_to_l_sp_u ;;
  a <- dict_at d 97 i ;; b <- dict_at d 98 i ;; assign_r_sp_d (V2 a b).
Fixpoint update_loop (d : dict K) (l : list Z) : QM unit :=
  match l with [] => ret tt | i :: l' => on i (update_particle d i) ;; update_loop d l' end.
(* particles_singular_variety.py:68-72 *)
Definition update_particles (d : dict K) : QM unit := s <- get ;; update_loop d (upto (length s)).
(* _singular_variety, particles_singular_variety.py:15-38: [solve] is point_on_variety, which
   gets the coordinates of the point and returns a dictionary or raises. *)
Definition singular_variety (solve : dict K -> result (dict K)) : QM unit :=
  s <- get ;; base <- lift (analytical_subs_d s) ;; d <- lift (solve base) ;; update_particles d.
(* from_singular_variety, particles_singular_variety.py:40-46: no base point; [dummy] is the
   random point cls(multiplicity) *)
Definition from_singular_variety (dummy : ps K) (solve : dict K -> result (dict K)) : result (ps K) :=
  match (bind (lift (solve [])) (fun d => update_particles d)) dummy with (s, Ok _) => Ok s | (_, Err e) => Err e end.
End Update.
