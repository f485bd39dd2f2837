(* C79: brackets of massive spinors. *)
From Coq Require Import Ascii String.
From Coq Require Import List ZArith Bool Lia.
From Verif Require Import Base Fld FldInst Particle Phase Compute ComputeSpec Symm Str Masses Parse Text TextSpec Tensor TensorSpec TensorThm TensorEval Properties04.
Import ListNotations.
Open Scope Z_scope.

(* the evaluation with arrays gives every value that the evaluation without arrays gives *)
Theorem C79_same : forall (K : Fld) fuel (s : ps K) A t a, compute_text fuel s A t = Ok a -> compute_wide fuel s A t = Ok (of_answer a).
Proof. intros K. exact wide_same. Qed.
Print Assumptions C79_same.
(* C79: an end with a lower spin index is the spinor of the next leg *)
Theorem C79_angle : forall (K : Fld) (s : ps K) A f i i' t j j' u p q, spinors_all s -> angle_open p -> angle_close q ->
  end_text lower i i' t -> end_text lower j j' u -> end_in s i i' -> end_in s j j' ->
  exists v, compute s (IA2 i' j') = Ok (VS v) /\ compute_wide (S (S f)) s A (opening p ++ t ++ lit "|" ++ u ++ closing q) = Ok (XNum (VElt v)).
Proof. intros K s A f i i' t j j' u p q SP. exact (angle_two s A f SP i i' t j j' u p q). Qed.
Print Assumptions C79_angle.
(* an end with an upper spin index is minus the spinor of the next leg *)
Theorem C79_square : forall (K : Fld) (s : ps K) A f i i' t j j' u, spinors_all s ->
  end_text upper i i' t -> end_text upper j j' u -> end_in s i i' -> end_in s j j' ->
  exists v, compute s (IS2 i' j') = Ok (VS v) /\
    compute_wide (S (S f)) s A (lit "[" ++ t ++ lit "|" ++ u ++ lit "]") = Ok (XNum (VElt (spin_sign i i' * spin_sign j j' * v)%fld)).
Proof. intros K s A f i i' t j j' u SP. exact (square_two s A f SP i i' t j j' u). Qed.
Print Assumptions C79_square.

Definition elt_is (r : result (wval GF13)) (v : GF13) : bool := match r with Ok (XNum (VElt x)) => feqb x v | _ => false end.
Lemma elt_ok r v : elt_is r v = true -> r = Ok (XNum (VElt v)).
Proof. destruct r as [[[| |x|]| |]|]; try discriminate. intros H. f_equal. f_equal. f_equal. apply (feqb_ok GF13), H. Qed.
Definition all_spinors (s : ps GF13) : bool := forallb (fun p => match r_u p, r_d p, l_u p, l_d p with Some _, Some _, Some _, Some _ => true | _, _, _, _ => false end) s.
Lemma all_spinors_ok s : all_spinors s = true -> spinors_all s.
Proof.
  intros H. apply Forall_forall. intros p I. apply (proj1 (forallb_forall _ _) H) in I. intros d. destruct (r_u p) eqn:E1, (r_d p) eqn:E2, (l_u p) eqn:E3, (l_d p) eqn:E4; try discriminate I. destruct d; cbn [side_get]; congruence.
Qed.
(* twelve legs *)
Definition ex12 : ps GF13 := from_spinors (map (fun k => let z := Z.of_nat k in (V2 (g13 (z * z + 1)) (g13 (3 * z + z * z * z)), V2 (g13 (z + 2)) (g13 (5 * z * z + 7)))) (seq 1 12)).
Example C79_ex : spinors_all ex12 /\ end_text lower 9 10 (lit "9_") /\ end_in ex12 9 10 /\
  compute_wide 2 ex12 [] (lit "<9_|11d>") = Ok (XNum (VElt (g13 7))) /\ compute_wide 2 ex12 [] (lit "<10|12>") = Ok (XNum (VElt (g13 7))) /\
  compute_wide 2 ex12 [] (lit "[9^|11]") = Ok (XNum (VElt (g13 1))) /\ compute_wide 2 ex12 [] (lit "[10|11]") = Ok (XNum (VElt (g13 (-1)))).
Proof.
  split; [apply all_spinors_ok; vm_compute; reflexivity|]. split; [exact (massive_end lower 9 95 (or_introl eq_refl))|]. split; [split; vm_compute; discriminate|].
  repeat split; apply elt_ok; vm_compute; reflexivity.
Qed.
