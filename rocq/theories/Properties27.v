(* C85: sums of products of brackets with massive spinors. *)
From Coq Require Import Ascii String.
From Coq Require Import List ZArith Bool Lia.
From Verif Require Import Base Fld FldInst Particle Phase Compute ComputeSpec Symm Str Masses Parse Text TextSpec Tensor TensorSpec TensorThm TensorEval TensorSumSpec TensorSumThm Properties04 Properties24.
Import ListNotations.
Open Scope Z_scope.

(* C85: sums of products of brackets, some of which have massive ends, have the value one expects *)
Theorem C85_sums : forall (K : Fld) (s : ps K) A f t v, spinors_all s -> total s true t v -> compute_wide (S (S f)) s A t = Ok (XNum (VElt v)).
Proof. intros K s A f t v SP. exact (total_value s A f SP t v). Qed.
Print Assumptions C85_sums.
Definition vs_is (r : result (@val GF13)) (v : GF13) : bool := match r with Ok (VS x) => feqb x v | _ => false end.
Lemma vs_ok r v : vs_is r v = true -> r = Ok (VS v).
Proof. destruct r as [[x| | |]|]; try discriminate. intros H. f_equal. f_equal. apply (feqb_ok GF13), H. Qed.
Ltac in12 := split; vm_compute; discriminate.
(* the brackets of the examples *)
Lemma ex_13 : bracket ex12 true (lit "<1_|3>") (g13 12).
Proof. exact (angle_bracket ex12 1 2 (lit "1_") 3 3 (lit "3") OLt CGt (g13 12) (or_intror eq_refl) (or_intror eq_refl) (massive_end lower 1 95 (or_introl eq_refl)) (massless_end lower 3) ltac:(in12) ltac:(in12) ltac:(apply vs_ok; vm_compute; reflexivity)). Qed.
Lemma ex_36 : bracket ex12 true (lit "<3_|6>") (g13 4).
Proof. exact (angle_bracket ex12 3 4 (lit "3_") 6 6 (lit "6") OLt CGt (g13 4) (or_intror eq_refl) (or_intror eq_refl) (massive_end lower 3 95 (or_introl eq_refl)) (massless_end lower 6) ltac:(in12) ltac:(in12) ltac:(apply vs_ok; vm_compute; reflexivity)). Qed.
Lemma ex_56 : bracket ex12 false (lit "<5|6>") (g13 6).
Proof. exact (angle_bracket ex12 5 5 (lit "5") 6 6 (lit "6") OLt CGt (g13 6) (or_intror eq_refl) (or_intror eq_refl) (massless_end lower 5) (massless_end lower 6) ltac:(in12) ltac:(in12) ltac:(apply vs_ok; vm_compute; reflexivity)). Qed.
Lemma ex_911 : bracket ex12 true (lit "[9^|11]") (spin_sign 9 10 * spin_sign 11 11 * g13 (-1))%fld.
Proof. exact (square_bracket ex12 9 10 (lit "9^") 11 11 (lit "11") (g13 (-1)) (massive_end upper 9 94 (or_introl eq_refl)) (massless_end upper 11) ltac:(in12) ltac:(in12) ltac:(apply vs_ok; vm_compute; reflexivity)). Qed.
Example C85_ex : spinors_all ex12 /\ exists v, total ex12 true (lit "<1_|3>*[9^|11]-<5|6>*<3_|6>+<5|6>") v /\ v = g13 7 /\ compute_wide 2 ex12 [] (lit "<1_|3>*[9^|11]-<5|6>*<3_|6>+<5|6>") = Ok (XNum (VElt (g13 7))).
Proof.
  split; [apply all_spinors_ok; vm_compute; reflexivity|]. eexists. split; [|split; [|apply elt_ok; vm_compute; reflexivity]].
  - exact (t_add _ _ _ _ _ _ _ (t_minus _ _ _ _ _ _ _ (t_one _ _ _ _ (p_times _ _ _ _ _ _ _ (p_one _ _ _ _ ex_13) ex_911)) (p_times _ _ _ _ _ _ _ (p_one _ _ _ _ ex_56) ex_36)) (p_one _ _ _ _ ex_56)).
  - apply (feqb_ok GF13). vm_compute. reflexivity.
Qed.
(* finding: the square of a bracket with a massive end is not the square of its value; the text becomes
   a@b**2, where ** comes before @ *)
Theorem C85_power_refuted : exists t v w, bracket ex12 true t v /\ compute_wide 2 ex12 [] (t ++ lit "^2") = Ok (XNum (VElt w)) /\ w <> (v * v)%fld.
Proof. exists (lit "<1_|3>"), (g13 12), (g13 3). split; [exact ex_13|]. split; [apply elt_ok; vm_compute; reflexivity|fneq]. Qed.
Print Assumptions C85_power_refuted.
(* finding: the same for dividing by one; a/b@c is (a/b)@c *)
Theorem C85_quotient_refuted : exists t v u x w, bracket ex12 true t v /\ bracket ex12 true u x /\ x <> f0 /\ compute_wide 2 ex12 [] (t ++ lit "/" ++ u) = Ok (XNum (VElt w)) /\ (w * x)%fld <> v.
Proof. exists (lit "<1_|3>"), (g13 12), (lit "<3_|6>"), (g13 4), (g13 12). split; [exact ex_13|]. split; [exact ex_36|]. split; [fneq|]. split; [apply elt_ok; vm_compute; reflexivity|fneq]. Qed.
Print Assumptions C85_quotient_refuted.
(* finding: without the * two brackets whose inner ends are massive are no product; the text calls an array *)
Theorem C85_side_by_side_refuted : exists t v u x e, bracket ex12 true t v /\ bracket ex12 true u x /\ compute_wide 2 ex12 [] (t ++ u) = Err e.
Proof. 
  exists (lit "[9|11^]"), (spin_sign 9 9 * spin_sign 11 12 * g13 6)%fld, (lit "<3_|6>"), (g13 4). eexists. split; [|split; [exact ex_36|vm_compute; reflexivity]].
  exact (square_bracket ex12 9 9 (lit "9") 11 12 (lit "11^") (g13 6) (massless_end upper 9) (massive_end upper 11 94 (or_introl eq_refl)) ltac:(in12) ltac:(in12) ltac:(apply vs_ok; vm_compute; reflexivity)).
Qed.
Print Assumptions C85_side_by_side_refuted.
