(* Model of Particles.cluster (lips/particles.py:164-192).  The internal masses, which
   are rewritten as strings, are in Masses.v. *)
From Coq Require Import List ZArith Bool.
From Verif Require Import Base Fld Particle Index Phase Compute.
Import ListNotations.

Section Cluster.
Context {K : Fld}.
Open Scope fld_scope.
Open Scope res_scope.

(* sum([self[i] for i in corner]), particles.py:173.  Simplification: for an empty
   corner the code puts the number 0 in the list of particles; here TypeError. *)
Definition corner_sum cv (s : ps K) (corner : list Z) : result (particle K) :=
  ls <-? rmapM (getitem s) corner ;;
  o <-? p_sum cv ls ;;
  match o with OPart p => Ok p | ONum _ => Err TypeError end.
(* particles.py:173-174, without massive_fermions *)
Definition cluster cv (corners : list (list Z)) (s : ps K) : result (ps K) :=
  rmapM (corner_sum cv s) corners.

(* index_position of a massive fermion, particles.py:181-186 *)
Inductive position := Up | Down | OtherPosition.

(* particles.py:179-184: numpy.block of the spinors of the two legs; the columns of the
   first matrix and the rows of the second one are numbered by the spin index *)
Definition cols (u v : v2 K) : m2 K := M2 (e0 u) (e0 v) (e1 u) (e1 v).
(* particles.py:180 *)
Definition rows (u v : v2 K) : m2 K := M2 (e0 u) (e1 u) (e0 v) (e1 v).
Definition fermion_spinors (pos : position) (s : ps K) (a b : Z) : result (m2 K * m2 K) :=
  pa <-? getitem s a ;; ra <-? need_r (r_d pa) ;;
  pb <-? getitem s b ;; rb <-? need_r (r_d pb) ;;
  la <-? need_r (l_d pa) ;; lb <-? need_r (l_d pb) ;;
  let R := cols ra rb in
  let L := rows la lb in
  match pos with
  | Up => Ok (R, mmul (mopp LeviCivita) L)
  | Down => Ok (mmul R (mopp LeviCivita), L)
  | OtherPosition => Err OtherException
  end.
(* [:, i-1:i] and [i-1:i, :].  Simplification: other values than 1 and 2 make empty
   arrays in the code; here ValueError.; particles.py:189 *)
Definition mcol (m : m2 K) (i : Z) : result (v2 K) :=
  if (i =? 1)%Z then Ok (V2 (m00 m) (m10 m)) else if (i =? 2)%Z then Ok (V2 (m01 m) (m11 m)) else Err ValueError.
(* particles.py:190 *)
Definition mrow (m : m2 K) (i : Z) : result (v2 K) :=
  if (i =? 1)%Z then Ok (V2 (m00 m) (m01 m)) else if (i =? 2)%Z then Ok (V2 (m10 m) (m11 m)) else Err ValueError.
Definition set_spin x (p : particle K) : particle K :=
  mkP (r_u p) (r_d p) (l_u p) (l_d p) (r2 p) (r2b p) (fm p) (fmd p) x.
(* particles.py:187-191, the attributes of one leg; spinors_all below is what
   index_value = all leaves behind *)
Definition set_fermion (up : bool) (r l : v2 K) : PM unit :=
  bind (modify (fun p => set_spin (Some up) (set_ld (Some l) (set_rd (Some r) p)))) (fun _ => sps_d_to_sps_u).
(* particles.py:176-191 for one entry (leg, index_position, index_value) with an
   integer index_value.  Simplification: leg outside 1..len(corners) is an IndexError
   (for leg = 0 the assert of particles.py:177 sees the last corner first). *)
Definition massive_fermion (s : ps K) (corners : list (list Z)) (f : Z * position * Z) : QM unit :=
  let '(leg, pos, i) := f in
  bind (lift (getitem corners leg)) (fun c =>
  match c with
  | [a; b] =>
      bind (lift (fermion_spinors pos s a b)) (fun RL =>
      bind (lift (mcol (fst RL) i)) (fun r =>
      bind (lift (mrow (snd RL) i)) (fun l =>
      on leg (set_fermion (match pos with Up => true | _ => false end) r l))))
  | _ => raise AssertionError
  end).
Fixpoint massive_loop (s : ps K) (corners : list (list Z)) (fs : list (Z * position * Z)) : QM unit :=
  match fs with
  | [] => ret tt
  | f :: fs' => bind (massive_fermion s corners f) (fun _ => massive_loop s corners fs')
  end.
(* particles.py:164-192; [s] is not changed *)
Definition cluster_fermions cv (corners : list (list Z)) (fs : list (Z * position * Z)) (s : ps K) : result (ps K) :=
  t <-? cluster cv corners s ;;
  match massive_loop s corners fs t with (t', Ok _) => Ok t' | (_, Err e) => Err e end.

(* index_value = all: the four arrays of the leg after particles.py:191, of shape (2,2);
   particle.py:430-436 *)
Record fermion := mkF { f_rd : m2 K; f_ru : m2 K; f_ld : m2 K; f_lu : m2 K }.
(* particles.py:176-191 *)
Definition spinors_all (pos : position) (s : ps K) (a b : Z) : result fermion :=
  RL <-? fermion_spinors pos s a b ;;
  let '(R, L) := RL in
  Ok (mkF R (mT (mmul LeviCivita R)) L (mT (mmul L (mT LeviCivita)))).
End Cluster.
Arguments fermion K : clear implicits.
