(* Model of phase-space level operations of lips/particles.py. *)
From Coq Require Import List ZArith Bool Lia.
From Verif Require Import Base Fld Particle Index.
Import ListNotations.

Section Phase.
Context {K : Fld}.
Open Scope fld_scope.
Open Scope mon_scope.

(* A Particles object: the base-one list of its particles.  Simplification: the
   entries are distinct objects (Heap.v treats sharing); oRefVec and the internal
   masses are separate (Polar.v, Masses.v).; particles.py:34-74 *)
Definition ps := list (particle K).
Definition QM (A : Type) := M ps A.

(* particles.py:102-105 *)
Definition total_mom (s : ps) : m2 K := msum (map (fun p => r2 p) s).

(* self[i], read; particles.py:392-406 *)
Definition at_ (i : Z) : QM (particle K) := fun s => (s, getitem s i).
(* self[i].attr = value: the particle is mutated in place, also if the setter raises; e.g. particles.py:296, 299 *)
Definition on (i : Z) (m : PM unit) : QM unit := fun s =>
  match getitem s i with
  | Err e => (s, Err e)
  | Ok p => let (p', r) := m p in
            match setitem s i p' with Ok s' => (s', r) | Err e => (s, Err e) end
  end.
(* an attribute that is None in an operation of arrays, e.g. particles.py:296-300 *)
Definition needo {A} (o : option A) : QM A :=
  match o with Some a => ret a | None => raise TypeError end.
Definition need_r {A} (o : option A) : result A :=
  match o with Some a => Ok a | None => Err TypeError end.

(* particles_compute.py:159-161  self[A].r_sp_u @ self[B].r_sp_d *)
Definition c_A2 (s : ps) (A B : Z) : result K :=
  (rbind (getitem s A) (fun p => rbind (getitem s B) (fun q =>
   rbind (need_r (r_u p)) (fun u => rbind (need_r (r_d q)) (fun d => Ok (vdot u d)))))).
(* particles_compute.py:171-173  self[A].l_sp_d @ self[B].l_sp_u *)
Definition c_S2 (s : ps) (A B : Z) : result K :=
  (rbind (getitem s A) (fun p => rbind (getitem s B) (fun q =>
   rbind (need_r (l_d p)) (fun d => rbind (need_r (l_u q)) (fun u => Ok (vdot d u)))))).

(* elementwise division of a 2-vector; ZeroDivisionError *)
Definition vdivE (v : v2 K) (d : K) : result (v2 K) :=
  if feqb d 0 then Err ZeroDivisionError else Ok (V2 (e0 v / d) (e1 v / d)).

(* [self[k] for k in range(1, len(self)+1) if k not in [A, B]], particles.py:289,294 *)
Definition others {X} (s : list X) (A B : Z) : result (list X) :=
  rmapM (getitem s) (filter (fun k => negb (Z.eqb k A || Z.eqb k B)) (upto (length s))).

(* particles.py:293-300: complex momenta.  Simplification: a label outside 1..n
   raises IndexError (in the code the same, except that a negative A reaches the
   string parser first and fails there). *)
Definition fix_mom_cons_complex (A B : Z) (axis : Z) : QM unit :=
  s <- get ;;
  os <- lift (others s A B) ;;
  let Kt := msum (map (fun p => r2 p) os) in
  if Z.eqb axis 1 then
    qB <- at_ B ;; lB <- needo (l_d qB) ;;
    s1 <- get ;; d1 <- lift (c_S2 s1 A B) ;;
    v1 <- lift (vdivE (vm lB Kt) d1) ;;
    on A (assign_r_sp_u v1) ;;
    qA <- at_ A ;; lA <- needo (l_d qA) ;;
    s2 <- get ;; d2 <- lift (c_S2 s2 A B) ;;
    v2 <- lift (vdivE (vopp (vm lA Kt)) d2) ;;
    on B (assign_r_sp_u v2)
  else
    qB <- at_ B ;; rB <- needo (r_d qB) ;;
    s1 <- get ;; d1 <- lift (c_A2 s1 A B) ;;
    v1 <- lift (vdivE (vopp (mv Kt rB)) d1) ;;
    on A (assign_l_sp_u v1) ;;
    qA <- at_ A ;; rA <- needo (r_d qA) ;;
    s2 <- get ;; d2 <- lift (c_A2 s2 A B) ;;
    v2 <- lift (vdivE (mv Kt rA) d2) ;;
    on B (assign_l_sp_u v2).

(* + of (4,) arrays, particles.py:289 *)
Definition v4add (a b : v4 K) : v4 K := V4 (c0 a + c0 b) (c1 a + c1 b) (c2 a + c2 b) (c3 a + c3 b).
(* - of a (4,) array, particles.py:291 *)
Definition v4opp (a : v4 K) : v4 K := V4 (- c0 a) (- c1 a) (- c2 a) (- c3 a).
(* - of (4,) arrays, particles.py:291 *)
Definition v4sub (a b : v4 K) : v4 K := V4 (c0 a - c0 b) (c1 a - c1 b) (c2 a - c2 b) (c3 a - c3 b).
(* the start value of sum, particles.py:289 *)
Definition v4zero : v4 K := V4 0 0 0 0.
(* sum of (4,) arrays, particles.py:289 *)
Definition v4sum (l : list (v4 K)) : v4 K := fold_right v4add v4zero l.
(* K[axis], particles.py:290 *)
Definition v4get (v : v4 K) (k : Z) : option K :=
  match k with 0 => Some (c0 v) | 1 => Some (c1 v) | 2 => Some (c2 v) | 3 => Some (c3 v) | _ => None end%Z.
Definition mdot (a b : v4 K) : K := c0 a * c0 b + c1 a * c1 b + c2 a * c2 b + c3 a * c3 b.

(* particles.py:288-291: real momenta.  sum([]) is the number 0 and 0[0] a TypeError;
   None in the sum is a TypeError too.  numpy.dot(K, numpy.dot(MinkowskiMetric, K)).
   Simplification: axis outside 0..3 is an IndexError (numpy would accept -4..-1). *)
Definition fix_mom_cons_real cv (A B : Z) (axis : Z) : QM unit :=
  s <- get ;;
  os <- lift (others s A B) ;;
  vs <- lift (rmapM (fun p => need_r (fm p)) os) ;;
  if Nat.eqb (length vs) 0 then raise TypeError else
  let Kv := v4sum vs in
  Kax <- lift (match v4get Kv axis with Some x => Ok x | None => Err IndexError end) ;;
  x <- lift (divE (- mdot Kv (metric Kv)) (2 * (c0 Kv - Kax))) ;;
  let comp k := if (Z.eqb k 0 || Z.eqb k axis)%bool then x else 0 in
  on A (assign_four_mom cv (V4 (comp 0%Z) (comp 1%Z) (comp 2%Z) (comp 3%Z))) ;;
  qA <- at_ A ;; vA <- needo (fm qA) ;;
  on B (assign_four_mom cv (v4sub (v4opp vA) Kv)).

(* particles.py:282-300.  [sample] is the pair drawn by random.sample (particles.py:285),
   [None] when fewer than two legs make it raise ValueError. *)
Definition fix_mom_cons cv (sample : option (Z * Z)) (A B : Z) (real : bool) (axis : Z) : QM unit :=
  let body A B :=
    if (negb (Z.eqb A 0) && negb (Z.eqb B 0))%bool then
      if real then fix_mom_cons_real cv A B axis else fix_mom_cons_complex A B axis
    else ret tt in
  if (Z.eqb A 0 && Z.eqb B 0)%bool then
    match sample with
    | Some (A', B') => body A' B'
    | None => raise ValueError
    end
  else body A B.

(* particles.py:302-320 in exact arithmetic *)
Definition mom_cons_check (s : ps) : bool := meqb (total_mom s) mzero.
Definition onshell_check (s : ps) : bool := forallb (fun p => feqb (lsq p) 0) s.

(* particles.py:44-74 with an integer argument, for a field whose particles are
   randomised through their spinors (particle.py:302-328): [draws] are the random
   spinors, one pair per particle; [fixmc] is the flag fix_mom_cons; total_mom of an
   empty list is the number 0, whose flatten() is not modelled (n >= 1). *)
Definition new_particles (draws : list (v2 K * v2 K)) (sample : option (Z * Z)) (fixmc : bool) : ps * result unit :=
  let s := map (fun d => new_spinors (fst d) (snd d)) draws in
  if fixmc && negb (mom_cons_check s) then fix_mom_cons Symmetric sample 0%Z 0%Z false 1%Z s
  else (s, Ok tt).

(* particle.py:323-328 on an existing particle, then particles.py:125-129: every
   particle is re-randomised and momentum conservation fixed *)
Definition randomise_spinors (r l : v2 K) : PM unit := init_spinors r l.
(* particles.py:125-129 *)
Fixpoint randomise_each (draws : list (v2 K * v2 K)) (s : ps) : ps :=
  match s, draws with
  | p :: s', d :: ds => fst (randomise_spinors (fst d) (snd d) p) :: randomise_each ds s'
  | s, _ => s
  end.
Definition randomise_all cv (draws : list (v2 K * v2 K)) (sample : option (Z * Z)) (s : ps) : ps * result unit :=
  fix_mom_cons cv sample 0%Z 0%Z false 1%Z (randomise_each draws s).

(* particles.py:139-142 *)
Definition ps_flip (s : ps) : ps := map (fun p => fst (angles_for_squares p)) s.

End Phase.
Arguments ps K : clear implicits.
