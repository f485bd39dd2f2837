(* Model of lips/particle.py: the state of one Particle and its methods. *)
From Coq Require Import List ZArith Bool Lia Ring Field.
From Verif Require Import Base Fld.
Import ListNotations.

Section Particle.
Context {K : Fld}.
Open Scope fld_scope.
Open Scope mon_scope.

(* lips.spinor_convention, __init__.py:27 *)
Inductive convention := Symmetric | Asymmetric.

(* tools.py:19  LeviCivita = [[0, 1], [-1, 0]] *)
Definition LeviCivita : m2 K := M2 0 1 (- (1)) 0.

(* tools.py:20  MinkowskiMetric = diag(1,-1,-1,-1), applied to a (4,) array
   (particle.py:411,414) *)
Definition metric (p : v4 K) : v4 K := V4 (c0 p) (- c1 p) (- c2 p) (- c3 p).

(* tools.py:21-25: the Pauli matrices, for a given square root i of -1 *)
Definition Pauli (i : K) (mu : nat) : m2 K :=
  match mu with
  | 0%nat => M2 1 0 0 1
  | 1%nat => M2 0 1 1 0
  | 2%nat => M2 0 (- i) i 0
  | _ => M2 1 0 0 (- (1))
  end.
(* tools.py:26 *)
Definition Pauli_bar (i : K) (mu : nat) : m2 K :=
  match mu with
  | 0%nat => Pauli i 0
  | _ => mopp (Pauli i mu)
  end.

(* The attributes of a Particle object (particle.py:25-300).  [None] is python's
   None.  [spin] is the attribute `spin_index` when present (particles.py:187),
   only its first component matters here: true = 'u', false = 'd'.
   Simplification: shapes are not tracked, a (2,1) and a (1,2) array are both
   2-vectors; spinors of shape (2,2) (massive fermions with index value `all`)
   are treated in Cluster.v. *)
Record particle : Type := mkP {
  r_u : option (v2 K); r_d : option (v2 K);
  l_u : option (v2 K); l_d : option (v2 K);
  r2 : m2 K; r2b : m2 K;
  fm : option (v4 K); fmd : option (v4 K);
  spin : option bool
}.

(* self._r_sp_u = v, particle.py:121-138 and 165-178 *)
Definition set_ru v p := mkP v (r_d p) (l_u p) (l_d p) (r2 p) (r2b p) (fm p) (fmd p) (spin p).
(* self._r_sp_d = v, particle.py:121-138 and 438-439 *)
Definition set_rd v p := mkP (r_u p) v (l_u p) (l_d p) (r2 p) (r2b p) (fm p) (fmd p) (spin p).
(* self._l_sp_u = v, particle.py:185-198 and 434-436 *)
Definition set_lu v p := mkP (r_u p) (r_d p) v (l_d p) (r2 p) (r2b p) (fm p) (fmd p) (spin p).
(* self._l_sp_d = v, particle.py:145-158 and 441-442 *)
Definition set_ld v p := mkP (r_u p) (r_d p) (l_u p) v (r2 p) (r2b p) (fm p) (fmd p) (spin p).
(* self._r2_sp = v, particle.py:205-226 *)
Definition set_r2 v p := mkP (r_u p) (r_d p) (l_u p) (l_d p) v (r2b p) (fm p) (fmd p) (spin p).
(* self._r2_sp_b = v, particle.py:233-254 *)
Definition set_r2b v p := mkP (r_u p) (r_d p) (l_u p) (l_d p) (r2 p) v (fm p) (fmd p) (spin p).
(* self._four_mom = v, particle.py:261-277 *)
Definition set_fm v p := mkP (r_u p) (r_d p) (l_u p) (l_d p) (r2 p) (r2b p) v (fmd p) (spin p).
(* self._four_mom_d = v, particle.py:284-300 *)
Definition set_fmd v p := mkP (r_u p) (r_d p) (l_u p) (l_d p) (r2 p) (r2b p) (fm p) v (spin p).

(* a method of Particle, particle.py:44-450 *)
Definition PM (A : Type) := M particle A.

(* numpy operations on None raise TypeError; e.g. particle.py:431, 435 *)
Definition need {A} (o : option A) : PM A :=
  match o with Some a => ret a | None => raise TypeError end.
(* multiplication by 1j (or by a Pauli matrix, which has complex entries) *)
Definition need_i : PM K :=
  match fimag with Some i => ret i | None => raise TypeError end.

(* the tuple of exceptions in particle.py:136,156,176,196,213,222,241,250,273,296,348 *)
Definition caught (e : exn) : bool :=
  match e with ValueError | TypeError | SystemError | NotInvertible => true | _ => false end.

(* ---- private conversions ---- *)

(* particle.py:430-432  _r_sp_u = (LeviCivita @ r_sp_d).T *)
Definition r_sp_d_to_r_sp_u : PM unit :=
  p <- get ;; v <- need (r_d p) ;; modify (set_ru (Some (mv LeviCivita v))).
(* particle.py:434-436  _l_sp_u = (l_sp_d @ LeviCivita.T).T *)
Definition l_sp_d_to_l_sp_u : PM unit :=
  p <- get ;; v <- need (l_d p) ;; modify (set_lu (Some (vm v (mT LeviCivita)))).
(* particle.py:438-439  _r_sp_d = (r_sp_u @ LeviCivita).T *)
Definition r_sp_u_to_r_sp_d : PM unit :=
  p <- get ;; v <- need (r_u p) ;; modify (set_rd (Some (vm v LeviCivita))).
(* particle.py:441-442  _l_sp_d = (LeviCivita.T @ l_sp_u).T *)
Definition l_sp_u_to_l_sp_d : PM unit :=
  p <- get ;; v <- need (l_u p) ;; modify (set_ld (Some (mv (mT LeviCivita) v))).
(* particle.py:448-450 *)
Definition sps_d_to_sps_u : PM unit := l_sp_d_to_l_sp_u ;; r_sp_d_to_r_sp_u.
(* particle.py:422-423  _r2_sp = dot(l_sp_u, r_sp_u) *)
Definition r1_sp_to_r2_sp : PM unit :=
  p <- get ;; l <- need (l_u p) ;; r <- need (r_u p) ;; modify (set_r2 (outer l r)).
(* particle.py:425-428  _r2_sp_b = dot(r_sp_d, l_sp_d) *)
Definition r1_sp_to_r2_sp_b : PM unit :=
  p <- get ;; r <- need (r_d p) ;; l <- need (l_d p) ;; modify (set_r2b (outer r l)).
(* particle.py:394-395  (LeviCivita.dot(r2_sp.dot(LeviCivita.T))).T *)
Definition r2_sp_to_r2_sp_b : PM unit :=
  modify (fun p => set_r2b (mT (mmul LeviCivita (mmul (r2 p) (mT LeviCivita)))) p).
(* particle.py:397-398 *)
Definition r2_sp_b_to_r2_sp : PM unit :=
  modify (fun p => set_r2 (mT (mmul LeviCivita (mmul (r2b p) (mT LeviCivita)))) p).
(* particle.py:400-403: P^mu = trace(Pauli_bar[mu] r2_sp)/2.
   Simplification: the placeholder array of particle.py:402 is not modelled, it is
   overwritten or replaced by None before anyone can see it. *)
Definition r2_sp_to_four_momentum : PM unit :=
  i <- need_i ;;
  modify (fun p =>
    let c mu := mtr (mmul (Pauli_bar i mu) (r2 p)) / 2 in
    set_fm (Some (V4 (c 0%nat) (c 1%nat) (c 2%nat) (c 3%nat))) p).
(* particle.py:405-408: P^mu = trace(Pauli[mu] r2_sp_b)/2 *)
Definition r2_sp_b_to_four_momentum : PM unit :=
  i <- need_i ;;
  modify (fun p =>
    let c mu := mtr (mmul (Pauli i mu) (r2b p)) / 2 in
    set_fm (Some (V4 (c 0%nat) (c 1%nat) (c 2%nat) (c 3%nat))) p).
(* particle.py:410-411 *)
Definition four_mom_to_four_mom_d : PM unit :=
  p <- get ;; v <- need (fm p) ;; modify (set_fmd (Some (metric v))).
(* particle.py:413-414 *)
Definition four_mom_d_to_four_mom : PM unit :=
  p <- get ;; v <- need (fmd p) ;; modify (set_fm (Some (metric v))).
(* sum over mu of v[mu] * S[mu], numpy.tensordot(v, S, axes=(0,0)) *)
Definition tensordot (v : v4 K) (S : nat -> m2 K) : m2 K :=
  madd (mscale (c0 v) (S 0%nat)) (madd (mscale (c1 v) (S 1%nat))
    (madd (mscale (c2 v) (S 2%nat)) (mscale (c3 v) (S 3%nat)))).
(* particle.py:416-417 *)
Definition four_mom_d_to_r2_sp : PM unit :=
  p <- get ;; v <- need (fmd p) ;; i <- need_i ;; modify (set_r2 (tensordot v (Pauli i))).
(* particle.py:419-420 *)
Definition four_mom_d_to_r2_sp_b : PM unit :=
  p <- get ;; v <- need (fmd p) ;; i <- need_i ;; modify (set_r2b (tensordot v (Pauli_bar i))).

Definition sqrtM (x : K) : PM K :=
  match fsqrt x with Some y => ret y | None => raise ValueError end.

(* particle.py:364-374; abs(x) <= tollerance is x = 0 *)
Definition set_r_sp_d_from (cv : convention) (P0_plus_P3 P1_plus_iP2 : K) : PM unit :=
  match cv with
  | Symmetric =>
      if feqb P0_plus_P3 0 then raise ValueError
      else l1 <- sqrtM P0_plus_P3 ;;
           lam2 <- lift (divE P1_plus_iP2 l1) ;;
           modify (set_rd (Some (V2 l1 lam2)))
  | Asymmetric => modify (set_rd (Some (V2 P0_plus_P3 P1_plus_iP2)))
  end.
(* particle.py:382-392 *)
Definition set_l_sp_d_from (cv : convention) (P0_plus_P3 P1_minus_iP2 : K) : PM unit :=
  match cv with
  | Symmetric =>
      if feqb P0_plus_P3 0 then raise ValueError
      else l1 <- sqrtM P0_plus_P3 ;;
           lam2 <- lift (divE P1_minus_iP2 l1) ;;
           modify (set_ld (Some (V2 l1 lam2)))
  | Asymmetric =>
      lam2 <- lift (divE P1_minus_iP2 P0_plus_P3) ;;
      modify (set_ld (Some (V2 1 lam2)))
  end.
(* particle.py:358-359 *)
Definition r2_sp_to_r_sp_d cv : PM unit :=
  p <- get ;; set_r_sp_d_from cv (m11 (r2 p)) (- m10 (r2 p)).
(* particle.py:376-377 *)
Definition r2_sp_to_l_sp_d cv : PM unit :=
  p <- get ;; set_l_sp_d_from cv (m11 (r2 p)) (- m01 (r2 p)).
(* particle.py:361-362 *)
Definition four_mom_to_r_sp_d cv : PM unit :=
  p <- get ;; v <- need (fm p) ;; i <- need_i ;;
  set_r_sp_d_from cv (c0 v + c3 v) (c1 v + c2 v * i).
(* particle.py:379-380 *)
Definition four_mom_to_l_sp_d cv : PM unit :=
  p <- get ;; v <- need (fm p) ;; i <- need_i ;;
  set_l_sp_d_from cv (c0 v + c3 v) (c1 v - c2 v * i).

(* the repeated block particle.py:133-138, 153-158, 173-178, 193-198, 238-243, 345-350 *)
Definition four_mom_from_r2b : PM unit :=
  try_except (r2_sp_b_to_four_momentum ;; four_mom_to_four_mom_d) caught
             (modify (fun p => set_fmd None (set_fm None p))).
(* particle.py:210-215 *)
Definition four_mom_from_r2 : PM unit :=
  try_except (r2_sp_to_four_momentum ;; four_mom_to_four_mom_d) caught
             (modify (fun p => set_fmd None (set_fm None p))).
Definition clear_spinors : PM unit :=
  modify (fun p => set_ld None (set_lu None (set_rd None (set_ru None p)))).
(* particle.py:217-226, 245-254 *)
Definition spinors_from_r2 cv : PM unit :=
  try_except (r2_sp_to_r_sp_d cv ;; r_sp_d_to_r_sp_u ;; r2_sp_to_l_sp_d cv ;; l_sp_d_to_l_sp_u)
             caught clear_spinors.
(* particle.py:268-277, 291-300 *)
Definition spinors_from_fm cv : PM unit :=
  try_except (four_mom_to_r_sp_d cv ;; r_sp_d_to_r_sp_u ;; four_mom_to_l_sp_d cv ;; l_sp_d_to_l_sp_u)
             caught clear_spinors.

(* ---- public setters ---- *)

(* particle.py:125-138 *)
Definition assign_r_sp_d (v : v2 K) : PM unit :=
  modify (set_rd (Some v)) ;; r_sp_d_to_r_sp_u ;; r1_sp_to_r2_sp ;; r1_sp_to_r2_sp_b ;;
  four_mom_from_r2b.
(* particle.py:145-158 *)
Definition assign_l_sp_d (v : v2 K) : PM unit :=
  modify (set_ld (Some v)) ;; l_sp_d_to_l_sp_u ;; r1_sp_to_r2_sp ;; r1_sp_to_r2_sp_b ;;
  four_mom_from_r2b.
(* particle.py:165-178 *)
Definition assign_r_sp_u (v : v2 K) : PM unit :=
  modify (set_ru (Some v)) ;; r_sp_u_to_r_sp_d ;; r1_sp_to_r2_sp ;; r1_sp_to_r2_sp_b ;;
  four_mom_from_r2b.
(* particle.py:185-198 *)
Definition assign_l_sp_u (v : v2 K) : PM unit :=
  modify (set_lu (Some v)) ;; l_sp_u_to_l_sp_d ;; r1_sp_to_r2_sp ;; r1_sp_to_r2_sp_b ;;
  four_mom_from_r2b.
(* particle.py:205-226 *)
Definition assign_r2_sp cv (m : m2 K) : PM unit :=
  modify (set_r2 m) ;; r2_sp_to_r2_sp_b ;; four_mom_from_r2 ;; spinors_from_r2 cv.
(* particle.py:233-254 *)
Definition assign_r2_sp_b cv (m : m2 K) : PM unit :=
  modify (set_r2b m) ;; r2_sp_b_to_r2_sp ;; four_mom_from_r2b ;; spinors_from_r2 cv.
(* particle.py:261-277 *)
Definition assign_four_mom cv (v : v4 K) : PM unit :=
  modify (set_fm (Some v)) ;; four_mom_to_four_mom_d ;; four_mom_d_to_r2_sp ;;
  four_mom_d_to_r2_sp_b ;; spinors_from_fm cv.
(* particle.py:284-300 *)
Definition assign_four_mom_d cv (v : v4 K) : PM unit :=
  modify (set_fmd (Some v)) ;; four_mom_d_to_four_mom ;; four_mom_d_to_r2_sp ;;
  four_mom_d_to_r2_sp_b ;; spinors_from_fm cv.

(* particle.py:330-350.  The branch on spin_index raises only for values other
   than 'u'/'d', which cluster (particles.py:185-186) never stores. *)
Definition angles_for_squares : PM unit :=
  p <- get ;;
  (match l_d p, r_d p with
   | Some l, Some r =>
       modify (fun q => set_rd (Some l) (set_ld (Some r) q)) ;;
       (match spin p with
        | None => ret tt
        | Some true => modify (fun q => set_ld (Some (vscale (- (1)) r)) q)
        | Some false => modify (fun q => set_rd (Some (vscale (- (1)) l)) q)
        end) ;;
       sps_d_to_sps_u
   | _, _ => ret tt
   end) ;;
  modify (fun q => set_r2 (mT (r2 q)) q) ;;
  modify (fun q => set_r2b (mT (r2b q)) q) ;;
  four_mom_from_r2b.

(* a particle under construction: `object.__new__`; reading an attribute that was
   never assigned is modelled by None (TypeError instead of AttributeError) or zero *)
Definition blank : particle := mkP None None None None mzero mzero None None None.

(* particle.py:47-50: Particle((r_sp_d, l_sp_d)); also :323-328 with random entries *)
Definition init_spinors (r l : v2 K) : PM unit :=
  modify (set_rd (Some r)) ;; r_sp_d_to_r_sp_u ;; assign_l_sp_d l.
Definition new_spinors (r l : v2 K) : particle := fst (init_spinors r l blank).
(* particle.py:45-46: Particle(kinematics of shape (2,2)) *)
Definition new_r2 cv (m : m2 K) : result particle :=
  match assign_r2_sp cv m blank with (p, Ok _) => Ok p | (_, Err e) => Err e end.
(* particle.py:43-44 *)
Definition new_four_mom cv (v : v4 K) : result particle :=
  match assign_four_mom cv v blank with (p, Ok _) => Ok p | (_, Err e) => Err e end.

(* particle.py:60-65 *)
Definition p_eqb (p q : particle) : bool := meqb (r2 p) (r2 q).

(* particle.py:470-477 and 479-481 *)
Definition lsq (p : particle) : K := mtr (mmul (r2 p) (r2b p)) / 2.
(* tools.py:115-116, particles_compute.py:46-48 *)
Definition ldot (p q : particle) : K := mtr (mmul (r2 p) (r2b q)) / 2.

(* particle.py:112-116: what is fed to hash().  [HNone] stands for the
   AttributeError of None.flatten(). *)
Inductive hash_input := HSpinors (r l : v2 K) | HMom (m : m2 K) | HNone.
Definition p_hash (p : particle) : hash_input :=
  if feqb (lsq p) 0 then
    match r_d p, l_d p with
    | Some r, Some l => HSpinors r l
    | _, _ => HNone
    end
  else HMom (r2 p).

(* ---- arithmetic, particle.py:67-107 ---- *)
(* an operand is a number or a Particle; `other == 0` is true only for the number 0; particle.py:72-107 *)
Inductive operand := ONum (c : K) | OPart (q : particle).

(* copy.copy: a new object with the same attribute values *)
Definition shallow (p : particle) : particle := p.

(* particle.py:72-77 and 79-84 (the assert fails for a non-zero number) *)
Definition p_add cv (p : particle) (o : operand) : result particle :=
  match o with
  | ONum c => if feqb c 0 then Ok (shallow p) else Err AssertionError
  | OPart q => new_r2 cv (madd (r2 p) (r2 q))
  end.
Definition p_radd cv (p : particle) (o : operand) : result particle := p_add cv p o.
(* particle.py:86-91 *)
Definition p_sub cv (p : particle) (o : operand) : result particle :=
  match o with
  | ONum c => if feqb c 0 then Ok (shallow p) else Err AssertionError
  | OPart q => new_r2 cv (msub (r2 p) (r2 q))
  end.
(* particle.py:93-99 *)
Definition p_mul cv (p : particle) (c : K) : result particle :=
  new_r2 cv (M2 (m00 (r2 p) * c) (m01 (r2 p) * c) (m10 (r2 p) * c) (m11 (r2 p) * c)).
(* particle.py:101-107 *)
Definition p_div cv (p : particle) (c : K) : result particle :=
  if feqb c 0 then Err ZeroDivisionError
  else new_r2 cv (M2 (m00 (r2 p) / c) (m01 (r2 p) / c) (m10 (r2 p) / c) (m11 (r2 p) / c)).
(* particle.py:67-70: randomised particle, then r2_sp assigned; [p0] is the
   randomly initialised object *)
Definition p_neg cv (p0 p : particle) : result particle :=
  match assign_r2_sp cv (mscale (- (1)) (r2 p)) p0 with
  | (q, Ok _) => Ok q | (_, Err e) => Err e end.
(* python's sum(list of particles): 0 + p1 + p2 + ...; sum([]) is the number 0 *)
Definition p_sum cv (l : list particle) : result operand :=
  fold_left (fun acc q =>
    match acc with
    | Err e => Err e
    | Ok (ONum c) => rmap OPart (p_radd cv q (ONum c))
    | Ok (OPart p) => rmap OPart (p_add cv p (OPart q))
    end) l (Ok (ONum 0)).

End Particle.
Arguments particle K : clear implicits.
Arguments operand K : clear implicits.
