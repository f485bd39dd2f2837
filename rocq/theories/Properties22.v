(* C77: setting s_ijk and the Gram determinant Delta by the two closed formulas. *)
From Coq Require Import List ZArith Bool Lia Permutation.
From Verif Require Import Base Fld Particle ParticleSpec ParticleThm Index IndexThm Phase PhaseSpec PhaseThm Arcs ArcsSpec Compute ComputeSpec ComputeThm FldInst ModP
  SetOne SetSpec SetThm SetThm2 SetPair SetPairSpec SetPairThm SetPairMore Closed ClosedSpec ClosedThm2 ClosedThm3 Properties20.
Import ListNotations.
Open Scope fld_scope.

(* the two formulas, 250 kB of text, solve two equations: with |A> = (a', b), |B> = (e', f) the sum
   of the momenta of A, B and C has determinant Y, and the momenta P of A, B and Q of C, D have
   (P.Q)^2 - P^2 Q^2 = X *)
Theorem C77_formulas :
  forall (K : Fld) (a b c d e f g h i j k l m n o p Y X a' e' : K), let args := [a; b; c; d; e; f; g; h; i; j; k; l; m; n; o; p] in
  expression_for_a args Y X = Ok a' -> expression_for_e args Y X = Ok e' ->
  let P := madd (outer (V2 a' b) (V2 c d)) (outer (V2 e' f) (V2 g h)) in let R := outer (V2 i j) (V2 k l) in
  let Q := madd R (outer (V2 m n) (V2 o p)) in let PQ := (mdet (madd P Q) - mdet P - mdet Q) / 2 in
  mdet (madd P R) = Y /\ PQ * PQ - mdet P * mdet Q = X.
Proof. exact @formulas_solve. Qed.
Print Assumptions C77_formulas.
(* and otherwise fail by a division by zero or for want of a square root *)
Theorem C77_formulas_total :
  forall (K : Fld) (a b c d e f g h i j k l m n o p Y X : K), let args := [a; b; c; d; e; f; g; h; i; j; k; l; m; n; o; p] in
  (exists a' e', expression_for_a args Y X = Ok a' /\ expression_for_e args Y X = Ok e') \/
  expression_for_a args Y X = Err ZeroDivisionError \/ expression_for_a args Y X = Err ValueError.
Proof. exact @closed_cases. Qed.
Print Assumptions C77_formulas_total.

(* _set_pair of s_S and Delta with corners {A, B}, {C, D}, {E, F, ...} in any order, S = {A, B, C}
   or its complement *)
Theorem C77_pair :
  forall (K : Fld) (cv : convention) (so : list Z -> list Z) (fuel : nat) (S : list Z) (v1 : K) (t2 : target) (w : K) (s : ps K) (cs : list (list Z)) (A B C D E F : Z) (rest : list Z),
  set_like so -> Forall (fun p => fresh p) s -> corners_of (length s) t2 cs ->
  Permutation cs [[A; B]; [C; D]; E :: F :: rest] -> Permutation (concat cs) (upto (length s)) -> crosses (length s) S A B C ->
  exists a b c d e f g h i j k l m n o p : K,
    components s A a b c d /\ components s B e f g h /\ components s C i j k l /\ components s D m n o p /\
    let args := [a; b; c; d; e; f; g; h; i; j; k; l; m; n; o; p] in
    let run := set_pair_all cv so expression_for_a expression_for_e (Datatypes.S fuel) (TInv (IS S)) v1 t2 w s in
    (forall x, expression_for_a args v1 w = Err x -> snd run = Err x) /\
    (forall a' e', expression_for_a args v1 w = Ok a' -> expression_for_e args v1 w = Ok e' ->
      (c_S2 s E F = Ok 0 -> snd run = Err ZeroDivisionError) /\
      (nz (c_S2 s E F) -> exists s', run = (s', Ok tt) /\ made2 s s' (TInv (IS S)) v1 t2 w [A; B; E; F] /\
         components s' A a' b c d /\ components s' B e' f g h)).
Proof. exact @pair_S_D_ok. Qed.
Print Assumptions C77_pair.
(* in short *)
Theorem C77_outcome :
  forall (K : Fld) (cv : convention) (so : list Z -> list Z) (fuel : nat) (S : list Z) (v1 : K) (t2 : target) (w : K) (s : ps K) (cs : list (list Z)) (A B C D E F : Z) (rest : list Z),
  set_like so -> Forall (fun p => fresh p) s -> corners_of (length s) t2 cs ->
  Permutation cs [[A; B]; [C; D]; E :: F :: rest] -> Permutation (concat cs) (upto (length s)) -> crosses (length s) S A B C ->
  let run := set_pair_all cv so expression_for_a expression_for_e (Datatypes.S fuel) (TInv (IS S)) v1 t2 w s in
  (exists s', run = (s', Ok tt) /\ made2 s s' (TInv (IS S)) v1 t2 w [A; B; E; F]) \/ snd run = Err ZeroDivisionError \/ snd run = Err ValueError.
Proof. exact @pair_S_D_outcome. Qed.
Print Assumptions C77_outcome.

(* six legs, s_123 = 5 and Delta_12|34|56 = 1; seven legs, with the complement of 1, 2, 3 *)
Definition set22 (S : list Z) (v : Z) (cs : list (list Z)) (w : Z) (s : ps GFM) : ps GFM * result unit :=
  set_pair_all Symmetric ns20 expression_for_a expression_for_e 1 (TInv (IS S)) (gM v) (TInv (IDelta cs)) (gM w) s.
Definition res22 (r : ps GFM * result unit) : option exn := match snd r with Ok _ => None | Err x => Some x end.
Example C77_ex :
  corners_of (length m6) (TInv (IDelta [[3; 4]; [1; 2]; [5; 6]]%Z)) [[3; 4]; [1; 2]; [5; 6]]%Z /\
  Permutation [[3; 4]; [1; 2]; [5; 6]]%Z [[1; 2]; [3; 4]; [5; 6]]%Z /\ crosses (length m6) [1; 2; 3]%Z 1 2 3 /\ crosses (length m6) [4; 5; 6]%Z 1 2 3 /\
  res22 (set22 [1; 2; 3] 5 [[3; 4]; [1; 2]; [5; 6]] 1 m6)%Z = None /\ res22 (set22 [4; 5; 6] 5 [[3; 4]; [1; 2]; [5; 6]] 1 m6)%Z = None /\
  res22 (set22 [1; 2; 3] 5 [[3; 4]; [1; 2]; [5; 6]] 2 m6)%Z = Some ValueError.
Proof.
  split; [left; reflexivity|]. split; [apply perm_swap|]. split; [left; reflexivity|]. split; [right; split; [discriminate|apply (Permutation_app_comm [4; 5; 6]%Z [1; 2; 3]%Z)]|].
  split; [vm_compute; reflexivity|]. split; vm_compute; reflexivity.
Qed.
(* false when the second corner has a third leg, which the formulas do not know of: the pair is
   not set, and _set_pair says so *)
Theorem C77_larger_corner_refuted :
  exists (S : list Z) (v w : GFM) (cs : list (list Z)) (s : ps GFM), Forall (fun p => fresh p) s /\ total_mom s = mzero /\ length cs = 3%nat /\ Permutation (concat cs) (upto (length s)) /\
    crosses (length s) S 1 2 3 /\ In [1; 2]%Z cs /\ In [3; 4; 7]%Z cs /\
    snd (set_pair_all Symmetric ns20 expression_for_a expression_for_e 5 (TInv (IS S)) v (TInv (IDelta cs)) w s) = Err MyException.
Proof.
  exists [1; 2; 3]%Z, (gM 5), (gM 1), [[1; 2]; [3; 4; 7]; [5; 6]]%Z, m7. split; [apply spM_fresh|]. split; [exact m7_total|]. split; [reflexivity|].
  split; [do 4 apply perm_skip; apply (Permutation_cons_append [5; 6]%Z 7%Z)|]. split; [left; reflexivity|]. split; [cbn; auto|]. split; [cbn; auto|]. vm_compute. reflexivity.
Qed.
Print Assumptions C77_larger_corner_refuted.
