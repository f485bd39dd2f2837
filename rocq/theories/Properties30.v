(* C88: matrices made of spinors in expressions. *)
From Coq Require Import Ascii String.
From Coq Require Import List ZArith Bool Lia.
From Verif Require Import Base Fld FldInst Particle ParticleSpec Index IndexThm Phase PhaseThm Compute ComputeSpec Symm Str Masses Parse Text TextSpec Tensor TensorSpec TensorSumSpec OuterSpec OuterThm Properties03 Properties04 Properties24 Properties27.
Import ListNotations.
Open Scope Z_scope.

(* C88: sums of products of two-brackets and one column directly before a row are the matrices one expects *)
Theorem C88_matrices : forall (K : Fld) (s : ps K) A f t m, matrix_sum s t m -> compute_wide (S (S f)) s A t = Ok (of_val (VMat m)).
Proof. intros K. exact matrix_value. Qed.
Print Assumptions C88_matrices.
(* C88: |i]<i|+|j]<j|+... is the momentum of the legs i, j, ..., when they are massless *)
Theorem C88_momentum : forall (K : Fld) (s : ps K) A f i p l qs, 0 <= i -> getitem s i = Ok p -> reproduces p ->
  Forall2 (fun j q => 0 <= j /\ getitem s j = Ok q /\ reproduces q) l qs ->
  compute_wide (S (S f)) s A (momentum_text i l) = Ok (of_val (VMat (msum (map (fun p => r2 p) (p :: qs))))).
Proof. intros K. exact momentum_value. Qed.
Print Assumptions C88_momentum.
(* C88: written with all legs it is zero exactly if momentum is conserved *)
Theorem C88_conserved : forall (K : Fld) (s : ps K) A f, s <> [] -> Forall (fun p => reproduces p) s ->
  (compute_wide (S (S f)) s A (momentum_text 1 (map Z.of_nat (seq 2 (length s - 1)))) = Ok (of_val (VMat mzero)) <-> total_mom s = mzero).
Proof. intros K. exact all_legs. Qed.
Print Assumptions C88_conserved.

Definition col_is (r : result (@val GF13)) (a b : GF13) : bool := match r with Ok (VCol v) => feqb (e0 v) a && feqb (e1 v) b | _ => false end.
Lemma col_ok r a b : col_is r a b = true -> r = Ok (VCol (V2 a b)).
Proof. destruct r as [[| |[x y]|]|]; try discriminate. cbn. intros H. apply andb_true_iff in H as [H1 H2]. apply (feqb_ok GF13) in H1, H2. now subst. Qed.
Definition row_is (r : result (@val GF13)) (a b : GF13) : bool := match r with Ok (VRow v) => feqb (e0 v) a && feqb (e1 v) b | _ => false end.
Lemma row_ok r a b : row_is r a b = true -> r = Ok (VRow (V2 a b)).
Proof. destruct r as [[|[x y]| |]|]; try discriminate. cbn. intros H. apply andb_true_iff in H as [H1 H2]. apply (feqb_ok GF13) in H1, H2. now subst. Qed.
Definition mat_is (r : result (wval GF13)) (a b c d : GF13) : bool :=
  match r with Ok (XArr [[VElt x; VElt y]; [VElt z; VElt w]]) => feqb x a && feqb y b && feqb z c && feqb w d | _ => false end.
Lemma mat_ok r a b c d : mat_is r a b c d = true -> r = Ok (of_val (VMat (M2 a b c d))).
Proof.
  destruct r as [[x|[|[|[?|?|x|] [|[?|?|y|] [|? ?]]] [|[|[?|?|z|] [|[?|?|w|] [|? ?]]] [|? ?]]]|?]|]; try discriminate. cbn. intros H.
  apply andb_true_iff in H as [H H4]. apply andb_true_iff in H as [H H3]. apply andb_true_iff in H as [H1 H2].
  apply (feqb_ok GF13) in H1, H2, H3, H4. now subst.
Qed.
Lemma mat_is_ok r (m : m2 GF13) : mat_is r (m00 m) (m01 m) (m10 m) (m11 m) = true -> r = Ok (of_val (VMat m)).
Proof. destruct m. apply mat_ok. Qed.
Lemma mneq (a b : m2 GF13) : meqb a b = false -> a <> b.
Proof. intros H E. apply meqb_ok in E. congruence. Qed.
(* the columns and rows of the examples *)
Lemma ex_3 : column ex6 (lit "|3>") (V2 (g13 2) (g13 2)).
Proof. exact (angle_column ex6 3 CGt (V2 (g13 2) (g13 2)) ltac:(discriminate) (or_intror eq_refl) ltac:(apply col_ok; vm_compute; reflexivity)). Qed.
Lemma ex_4 : row ex6 (lit "[4|") (V2 (g13 10) (g13 8)).
Proof. exact (square_row ex6 4 (V2 (g13 10) (g13 8)) ltac:(discriminate) ltac:(apply row_ok; vm_compute; reflexivity)). Qed.
Lemma ex_5 : column ex6 (lit "|5]") (V2 (g13 3) (g13 7)).
Proof. exact (square_column ex6 5 (V2 (g13 3) (g13 7)) ltac:(discriminate) ltac:(apply col_ok; vm_compute; reflexivity)). Qed.
Lemma ex_6 : row ex6 (lit "<6|") (V2 (g13 8) (g13 9)).
Proof. exact (angle_row ex6 6 OLt (V2 (g13 8) (g13 9)) ltac:(discriminate) (or_intror eq_refl) ltac:(apply row_ok; vm_compute; reflexivity)). Qed.
Lemma ex_12 : plain_bracket ex6 (lit "<1|2>", g13 10).
Proof. exact (angle_bracket ex6 1 1 (lit "1") 2 2 (lit "2") OLt CGt (g13 10) (or_intror eq_refl) (or_intror eq_refl) (massless_end lower 1) (massless_end lower 2) ltac:(in12) ltac:(in12) ltac:(apply vs_ok; vm_compute; reflexivity)). Qed.
Lemma ex_12s : plain_bracket ex6 (lit "[1|2]", (spin_sign 1 1 * spin_sign 2 2 * g13 11)%fld).
Proof. exact (square_bracket ex6 1 1 (lit "1") 2 2 (lit "2") (g13 11) (massless_end upper 1) (massless_end upper 2) ltac:(in12) ltac:(in12) ltac:(apply vs_ok; vm_compute; reflexivity)). Qed.
Example C88_ex : exists m, matrix_sum ex6 (lit "<1|2>*|3>[4|-|5]<6|*[1|2]") m /\ m = M2 (g13 1) (g13 6) (g13 0) (g13 0) /\
  compute_wide 2 ex6 [] (lit "<1|2>*|3>[4|-|5]<6|*[1|2]") = Ok (of_val (VMat (M2 (g13 1) (g13 6) (g13 0) (g13 0)))) /\
  momentum_text 1 (map Z.of_nat (seq 2 (length ex6 - 1))) = [124; 49; 93; 10216] ++ lit "1|+|2]" ++ 10216 :: lit "2|+|3]" ++ 10216 :: lit "3|+|4]" ++ 10216 :: lit "4|+|5]" ++ 10216 :: lit "5|+|6]" ++ 10216 :: lit "6|" /\
  compute_wide 2 ex6 [] (momentum_text 1 (map Z.of_nat (seq 2 (length ex6 - 1)))) = Ok (of_val (VMat mzero)).
Proof.
  eexists. split; [|split; [|split; [apply mat_ok; vm_compute; reflexivity|split; [reflexivity|]]]].
  - exact (s_minus _ _ _ _ _ (s_one _ _ _ (a_term _ [(lit "<1|2>", g13 10)] _ _ _ _ [] ltac:(repeat constructor; exact ex_12) ex_3 ex_4 ltac:(constructor)))
             (a_term _ [] _ _ _ _ [(lit "[1|2]", (spin_sign 1 1 * spin_sign 2 2 * g13 11)%fld)] ltac:(constructor) ex_5 ex_6 ltac:(repeat constructor; exact ex_12s))).
  - fcomp.
  - apply (C88_conserved GF13 ex6 [] 0); [discriminate|apply ex6_reproduces|apply ex6_total].
Qed.
(* C88 does not hold for two matrices written side by side: what is computed is the product of their
   entries one by one, |i>_a [j|_b |k]_a <l|_b, and not the product of the matrices, which is what the
   same text with an @ between them gives (particles_eval.py:36) *)
Theorem C88_product_refuted : exists (s : ps GF13) m n r, matrix_sum s (lit "|3>[4|") m /\ matrix_sum s (lit "|5]<6|") n /\
  compute_wide 2 s [] (lit "|3>[4||5]<6|") = Ok (of_val (VMat r)) /\ r <> mmul m n /\ r = M2 (m00 m * m00 n)%fld (m01 m * m01 n)%fld (m10 m * m10 n)%fld (m11 m * m11 n)%fld /\
  compute_wide 2 s [] (lit "|3>[4|@|5]<6|") = Ok (of_val (VMat (mmul m n))).
Proof.
  exists ex6. eexists. eexists. exists (M2 (g13 12) (g13 3) (g13 2) (g13 7)).
  split; [exact (s_one _ _ _ (a_term _ [] _ _ _ _ [] ltac:(constructor) ex_3 ex_4 ltac:(constructor)))|]. split; [exact (s_one _ _ _ (a_term _ [] _ _ _ _ [] ltac:(constructor) ex_5 ex_6 ltac:(constructor)))|].
  split; [apply mat_ok; vm_compute; reflexivity|]. split; [apply mneq; vm_compute; reflexivity|]. split; [fcomp|]. apply mat_is_ok. vm_compute. reflexivity.
Qed.
Print Assumptions C88_product_refuted.
(* C88 does not hold for powers: ^2 behind a matrix acts on the row only, whose entries are squared
   one by one, so that what is computed is neither the square of the matrix nor the matrix of the
   squares (particles_eval.py:36, 182-183) *)
Theorem C88_square_refuted : exists (s : ps GF13) m r a b, matrix_sum s (lit "|3>[4|") m /\ column s (lit "|3>") a /\ row s (lit "[4|") b /\
  compute_wide 2 s [] (lit "|3>[4|^2") = Ok (of_val (VMat r)) /\ r <> mmul m m /\ r <> M2 (m00 m * m00 m)%fld (m01 m * m01 m)%fld (m10 m * m10 m)%fld (m11 m * m11 m)%fld /\
  r = M2 (e0 a * (e0 b * e0 b))%fld (e0 a * (e1 b * e1 b))%fld (e1 a * (e0 b * e0 b))%fld (e1 a * (e1 b * e1 b))%fld.
Proof.
  exists ex6. eexists. exists (M2 (g13 5) (g13 11) (g13 5) (g13 11)), (V2 (g13 2) (g13 2)), (V2 (g13 10) (g13 8)).
  split; [exact (s_one _ _ _ (a_term _ [] _ _ _ _ [] ltac:(constructor) ex_3 ex_4 ltac:(constructor)))|]. split; [exact ex_3|]. split; [exact ex_4|].
  split; [apply mat_ok; vm_compute; reflexivity|]. split; [apply mneq; vm_compute; reflexivity|]. split; [apply mneq; vm_compute; reflexivity|]. fcomp.
Qed.
Print Assumptions C88_square_refuted.
