(* The closed formulas for s_ijk and Delta_ijk solve the two equations. *)
From Coq Require Import Ascii String.
From Coq Require Import List ZArith Bool Lia Field Ring_polynom Ring_theory InitialRing Setoid.
From Verif Require Import Base Fld Str Parse ParseEval ClosedText Closed ClosedThm.
Import ListNotations.
Open Scope Z_scope.
Opaque tA tB tB1 tC t_D t_N pA pB pC pD pN tree poly_of pe ev.

Section Solve.
Context {K : Fld}.
Add Field Kcf2 : (fth K).
Open Scope fld_scope.
Context (args : list K) (L : length args = 16%nat) (Y X : K).
Let l := arguments args Y X.
Let env := parameters args Y X.
Lemma val_of t : poly_ok t = true -> fvalue env t = Ok (VElt (ev l (poly_of t))).
Proof.
  intros H. destruct (poly_ok_of t H) as [E N]. destruct (pe_value args Y X L t _ E) as (v & Ev & _ & Hv). specialize (Hv N). subst v. exact Ev.
Qed.
Definition disc : K := ev l pB * ev l pB - kz 4 * ev l pA * ev l pC.
Lemma disc_eq : kpow (ev l (poly_of tB1)) 2 - kz 4 * ev l pA * ev l pC = disc.
Proof. rewrite (same_values _ _ l roots_ok). rewrite ev_opp. unfold disc. cbn [kpow]. ring. Qed.
Lemma num_val : fvalue env t_num = match fsqrt disc with Some r => Ok (VElt (ev l pB - r)) | None => Err ValueError end.
Proof.
  unfold t_num. cbn [fvalue]. rewrite (val_of _ ok_B), (val_of _ ok_B1), (val_of _ ok_A), (val_of _ ok_C). rewrite <- disc_eq. rewrite <- pA_eq, <- pB_eq, <- pC_eq.
  generalize (ev l pB) (ev l (poly_of tB1)) (ev l pA) (ev l pC). intros b b1 a c. cbn -[kz fsqrt kpow]. destruct (fsqrt _); reflexivity.
Qed.
Lemma den_val : fvalue env t_den = Ok (VElt (kz 2 * ev l pA)).
Proof. unfold t_den. cbn [fvalue]. rewrite (val_of _ ok_A). rewrite <- pA_eq. generalize (ev l pA). reflexivity. Qed.
Lemma e_val : expression_for_e args Y X = match fsqrt disc with Some r => divE (ev l pB - r) (kz 2 * ev l pA) | None => Err ValueError end.
Proof.
  unfold expression_for_e, expression. rewrite parse_e. cbn [rbind]. fold env. change (fvalue env (FDiv t_num t_den)) with (rbind (fvalue env t_num) (fun x => rbind (fvalue env t_den) (fun y => v_div x y))).
  rewrite num_val, den_val. destruct (fsqrt disc); [|reflexivity]. generalize (ev l pA) (ev l pB). intros a b. cbn -[kz divE]. destruct (divE _ _); reflexivity.
Qed.
Lemma part_val x : poly_ok (tree (lit x)) = true -> fvalue env (t_part x) =
  match fsqrt disc with Some r => rmap VElt (divE (ev l (poly_of (tree (lit x))) * (ev l pB - r)) (kz 2 * ev l pA)) | None => Err ValueError end.
Proof.
  intros H. unfold t_part. change (fvalue env (FDiv (FMul (tree (lit x)) t_num) t_den)) with
    (rbind (rbind (fvalue env (tree (lit x))) (fun x => rbind (fvalue env t_num) (fun y => v_mul x y))) (fun x => rbind (fvalue env t_den) (fun y => v_div x y))).
  rewrite (val_of _ H), num_val, den_val. generalize (ev l pA) (ev l pB) (ev l (poly_of (tree (lit x)))). intros a b c. destruct (fsqrt disc); [|reflexivity]. cbn -[kz divE]. destruct (divE _ _); reflexivity.
Qed.
Lemma a_val_zero : ev l pD = 0 -> expression_for_a args Y X = Err ZeroDivisionError.
Proof.
  intros Z. unfold expression_for_a, expression. rewrite parse_a. cbn [rbind]. fold env. unfold t_a.
  set (rest := FAdd _ _). change (fvalue env (FMul (FDiv (FNum 1) t_D) rest)) with
    (rbind (rbind (fvalue env t_D) (fun y => v_div (VInt 1) y)) (fun x => rbind (fvalue env rest) (fun y => v_mul x y))).
  rewrite (val_of _ ok_D). rewrite <- pD_eq, Z. cbn -[kz rest fvalue]. unfold divE. assert (E : feqb (f := K) 0 0 = true) by (apply feqb_ok; reflexivity). rewrite E. reflexivity.
Qed.
Lemma a_val : ev l pD <> 0 -> expression_for_a args Y X =
  match fsqrt disc with
  | Some r => rmap (fun e => 1 / ev l pD * (ev l pN + (ev l (poly_of m1) - ev l (poly_of m2) - ev l (poly_of m3) + ev l (poly_of m4)) * e)) (divE (ev l pB - r) (kz 2 * ev l pA))
  | None => Err ValueError
  end.
Proof.
  intros Z. unfold expression_for_a, expression. rewrite parse_a. cbn [rbind]. fold env. unfold t_a.
  set (q1 := t_part "b*d*g"). set (q2 := t_part "b*c*h"). set (q3 := t_part "h*j*k"). set (q4 := t_part "g*j*l").
  assert (E1 : fvalue env q1 = _) by exact (part_val "b*d*g" ok_1). assert (E2 : fvalue env q2 = _) by exact (part_val "b*c*h" ok_2).
  assert (E3 : fvalue env q3 = _) by exact (part_val "h*j*k" ok_3). assert (E4 : fvalue env q4 = _) by exact (part_val "g*j*l" ok_4).
  assert (ED := val_of _ ok_D). assert (EN := val_of _ ok_N). rewrite <- pD_eq in ED. rewrite <- pN_eq in EN.
  fold m1 in E1. fold m2 in E2. fold m3 in E3. fold m4 in E4. clearbody q1 q2 q3 q4. revert Z E1 E2 E3 E4 ED EN.
  generalize (ev l (poly_of m1)) (ev l (poly_of m2)) (ev l (poly_of m3)) (ev l (poly_of m4)) (ev l pD) (ev l pN) (ev l pB) (ev l pA) (fsqrt disc). intros x1 x2 x3 x4 D N B A sq Z E1 E2 E3 E4 ED EN.
  cbn [fvalue]. rewrite ED, EN, E1, E2, E3, E4. cbn [rbind]. assert (Q : v_div (VInt 1) (VElt D) = Ok (VElt (1 / D))).
  { cbn -[kz]. unfold divE. destruct (feqb D 0) eqn:F; [apply feqb_ok in F; contradiction|]. cbn -[kz]. rewrite kz_1. reflexivity. }
  rewrite Q. cbn [rbind]. destruct sq as [r|]; [|reflexivity]. unfold divE. destruct (feqb (kz 2 * A) 0) eqn:F; [reflexivity|].
  assert (NA : kz 2 * A <> 0) by (intros E; apply feqb_ok in E; congruence). cbn -[kz]. f_equal. field. split; [|split]; try assumption; intros E; apply NA; rewrite E; ring.
Qed.
End Solve.
Section Both.
Context {K : Fld}.
Add Field Kcf3 : (fth K).
Open Scope fld_scope.
Lemma kz2 : kz 2 = 2 :> K. Proof. reflexivity. Qed.
Lemma kz4 : kz 4 = 2 * 2 :> K. Proof. reflexivity. Qed.
Lemma times_cancel (z x y : K) : z <> 0 -> z * x = z * y -> x = y.
Proof. intros N E. transitivity (z * x / z); [field; exact N|]. rewrite E. field. exact N. Qed.
Lemma root_ok (A B C r e : K) : r * r = B * B - kz 4 * A * C -> divE (B - r) (kz 2 * A) = Ok e -> A * (e * e) - B * e + C = 0.
Proof.
  intros R E. apply divE_ok in E as [N ->]. rewrite kz2 in N |- *. rewrite kz4 in R. assert (NA : A <> 0) by (intros ->; apply N; ring). assert (N2 : (2 : K) <> 0) by apply f2_nz.
  transitivity ((r * r - (B * B - 2 * 2 * A * C)) / (2 * 2 * A)); [field; repeat split; first [exact NA | exact N2 | exact (mul_nz 2 2 N2 N2) | exact (mul_nz (2 * 2) A (mul_nz 2 2 N2 N2) NA) | exact (mul_nz 2 A N2 NA)]|]. rewrite R.
  field. repeat split; first [exact NA | exact N2 | exact (mul_nz 2 2 N2 N2) | exact (mul_nz (2 * 2) A (mul_nz 2 2 N2 N2) NA)].
Qed.
Context (a b c d e f g h i j k l m n o p Y X : K).
Notation args := [a; b; c; d; e; f; g; h; i; j; k; l; m; n; o; p].
(* either both formulas give numbers, or the first fails in one of two ways *)
Lemma closed_cases : (exists a' e', expression_for_a args Y X = Ok a' /\ expression_for_e args Y X = Ok e') \/
  expression_for_a args Y X = Err ZeroDivisionError \/ expression_for_a args Y X = Err ValueError.
Proof.
  destruct (feqb (ev (arguments args Y X) pD) 0) eqn:F; [apply feqb_ok in F; right; left; exact (a_val_zero args eq_refl Y X F)|].
  assert (ND : ev (arguments args Y X) pD <> 0) by (intros E; apply feqb_ok in E; congruence).
  rewrite (a_val args eq_refl Y X ND), (e_val args eq_refl Y X). destruct (fsqrt _) as [r|]; [|right; right; reflexivity].
  destruct (divE (ev (arguments args Y X) pB - r) (kz 2 * ev (arguments args Y X) pA)) as [e'|x] eqn:E; [left; cbn [rmap]; eauto|]. right; left. cbn [rmap]. unfold divE in E. match type of E with context [feqb ?u ?v] => destruct (feqb u v) end; congruence.
Qed.
(* the two equations *)
Lemma closed_solves a' e' : expression_for_a args Y X = Ok a' -> expression_for_e args Y X = Ok e' ->
  let D := d * f * g - c * f * h + d * j * k - c * j * l in
  D <> 0 /\ D * a' = (b * d * i * k + f * h * i * k - b * c * i * l - f * g * i * l - Y) + (b * d * g - b * c * h - h * j * k + g * j * l) * e' /\
  let P00 := a' * c + e' * g in let P01 := a' * d + e' * h in let P10 := b * c + f * g in let P11 := b * d + f * h in
  let Q00 := i * k + m * o in let Q01 := i * l + m * p in let Q10 := j * k + n * o in let Q11 := j * l + n * p in
  let PQ := P00 * Q11 + P11 * Q00 - P01 * Q10 - P10 * Q01 in
  PQ * PQ - 2 * 2 * ((P00 * P11 - P01 * P10) * (Q00 * Q11 - Q01 * Q10)) = 2 * 2 * X.
Proof.
  intros Ea Ee D. assert (ED := evD a b c d e f g h i j k l m n o p Y X). fold D in ED.
  assert (ND : ev (arguments args Y X) pD <> 0) by (intros F; rewrite (a_val_zero args eq_refl Y X F) in Ea; discriminate Ea).
  rewrite (a_val args eq_refl Y X ND) in Ea. rewrite (e_val args eq_refl Y X) in Ee. cbn [arguments app] in *.
  destruct (fsqrt _) as [r|] eqn:SQ; [|discriminate Ea]. apply fsqrt_ok in SQ. unfold disc in SQ. cbn [arguments app] in SQ. rewrite Ee in Ea. cbn [rmap] in Ea.
  rewrite ED, evN, ev1, ev2, ev3, ev4 in Ea. rewrite ED in ND.
  set (u := (b * d * i * k + f * h * i * k - b * c * i * l - f * g * i * l - Y) + (b * d * g - b * c * h - h * j * k + g * j * l) * e') in *.
  assert (Ea' : a' = 1 / D * u) by congruence. clear Ea. split; [exact ND|]. assert (Hu : D * a' = u) by (rewrite Ea'; field; exact ND). split; [exact Hu|].
  assert (R := root_ok _ _ _ _ _ SQ Ee). assert (Q := quadratic a b c d e' f g h i j k l m n o p Y X). cbv zeta in Q. fold D in Q. fold u in Q.
  assert (Same : forall z, z <> 5%positive -> (z <= 18)%positive -> BinList.nth 0 z [a; b; c; d; e'; f; g; h; i; j; k; l; m; n; o; p; Y; X] = BinList.nth 0 z [a; b; c; d; e; f; g; h; i; j; k; l; m; n; o; p; Y; X]).
  { clear. intros z Z5 Z18. assert (H : (z = 1 \/ z = 2 \/ z = 3 \/ z = 4 \/ z = 6 \/ z = 7 \/ z = 8 \/ z = 9 \/ z = 10 \/ z = 11 \/ z = 12 \/ z = 13 \/ z = 14 \/ z = 15 \/ z = 16 \/ z = 17 \/ z = 18)%positive) by lia.
    repeat (destruct H as [-> | H]; [reflexivity|]). subst z. reflexivity. }
  rewrite (avoids_ev _ _ pA avoids_A Same), (avoids_ev _ _ pB avoids_B Same), (avoids_ev _ _ pC avoids_C Same), R in Q.
  clear - Hu Q ND. rewrite <- Hu in Q. cbv zeta.
  assert (N : D * D <> 0) by (apply mul_nz; exact ND). apply (times_cancel (D * D)); [exact N|].
  match type of Q with 0 = ?x - ?y => assert (Q' : y = x) by (transitivity (x - (x - y)); [ring|rewrite <- Q; ring]) end.
  transitivity (2 * 2 * (D * D) * X); [|ring]. rewrite <- Q'. ring.
Qed.
End Both.
