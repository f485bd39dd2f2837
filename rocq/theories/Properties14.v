(* C44: symmetries of polynomials and of points. *)
From Coq Require Import Ascii String.
From Coq Require Import List ZArith Bool Lia.
From Verif Require Import Base Fld FldInst Particle ParticleSpec ParticleThm Index Phase PhaseSpec Compute ComputeSpec Symm SymmSpec SymmThm Str Gen Ideal IdealSpec IdealThm IdealThm2 Properties04 Properties05.
Import ListNotations.
Open Scope Z_scope.

(* a1*b2-3*c3^2+(d4-a6)**2 *)
Definition cov14 : poly :=
  Add (Sub (Mul (Var 97 1) (Var 98 2)) (Mul (Num 3) (Pow false (Var 99 3) 2))) (Pow true (Par (Sub (Var 100 4) (Var 97 6))) 2).
(* A1*B2-A3*B15+7*A4^2 *)
Definition inv14 : poly :=
  Add (Sub (Mul (Var 65 1) (Var 66 2)) (Mul (Var 65 3) (Var 66 15))) (Mul (Num 7) (Pow false (Var 65 4) 2)).
(* A1*B2*A9-A15^3 *)
Definition inv14c : poly := Sub (Mul (Mul (Var 65 1) (Var 66 2)) (Var 65 9)) (Pow false (Var 65 15) 3).
(* A1-10 *)
Definition inhom14 : poly := Sub (Var 65 1) (Num 10).
Ltac sum_step := lazymatch goal with
  | |- sum (Add _ _) => apply sum_add | |- sum (Sub _ _) => apply sum_sub | |- sum (Neg _) => apply sum_neg | |- sum _ => apply sum_term
  | |- term (Mul _ _) => apply term_mul | |- term _ => apply term_factor
  | |- factor (Pow _ _ _) => apply factor_pow | |- factor _ => apply factor_atom
  | |- atom (Par _) => apply atom_par | |- atom (Num _) => apply atom_num | |- atom (Var _ _) => apply atom_var
  | |- _ => lia end.
Lemma cov14_sum : sum cov14. Proof. unfold cov14, inv14, inv14c. repeat sum_step. Qed.
Lemma inv14_sum : sum inv14. Proof. unfold cov14, inv14, inv14c. repeat sum_step. Qed.
Lemma inv14c_sum : sum inv14c. Proof. unfold cov14, inv14, inv14c. repeat sum_step. Qed.

(* C44: at the image of a point, the image of a polynomial in the components of the spinors
   has the value of the polynomial at the point. *)
Theorem C44_covariant : forall n perm conj e, (0 < n <= 9)%nat -> is_perm n perm -> sum e -> vars (covariant_var (Z.of_nat n)) e ->
  exists e', covariant_poly_image (text e) (perm, conj) = Ok (text e') /\ sum e' /\ vars (covariant_var (Z.of_nat n)) e' /\
  forall (K : Fld) (s s' : ps K) (d : dict K), length s = n -> different s -> sound s -> Forall plain s -> image (perm, conj) s = Ok s' -> analytical_subs_d s = Ok d ->
  exists d', analytical_subs_d s' = Ok d' /\ value (fun x => dict_get x d') e' = value (fun x => dict_get x d) e.
Proof. exact covariant_ok. Qed.
Print Assumptions C44_covariant.
Example C44_covariant_ex : (0 < 6 <= 9)%nat /\ is_perm 6 perm6 /\ sum cov14 /\ vars (covariant_var 6) cov14 /\
  length ex6 = 6%nat /\ different ex6 /\ sound ex6 /\ Forall plain ex6 /\
  text cov14 = lit "a1*b2-3*c3^2+(d4-a6)**2" /\
  covariant_poly_image (lit "a1*b2-3*c3^2+(d4-a6)**2") (perm6, true) = Ok (lit "c3*d1-3*a6^2+(b5-c4)**2") /\
  (exists s', image (perm6, true) ex6 = Ok s') /\
  exists d, analytical_subs_d ex6 = Ok d /\ value (fun x => dict_get x d) cov14 = Some (g13 6).
Proof.
  split; [lia|]. split; [apply perm6_ok|]. split; [apply cov14_sum|]. split; [cbn; unfold covariant_var; lia|]. split; [reflexivity|]. split; [apply ex6_different|]. split; [apply ex6_sound|]. split; [apply ex6_plain|].
  split; [vm_compute; reflexivity|]. split; [vm_compute; reflexivity|].
  split; [exists (get_ok [] (image (perm6, true) ex6)); fok|]. exists (get_ok [] (analytical_subs_d ex6)). split; [fok|]. fsomeq.
Qed.

(* C44: the same for polynomials in the invariants A1, A2, ... (angle brackets) and
   B1, B2, ... (square brackets), without conjugation. *)
Theorem C44_invariant : forall n perm e, (0 < n <= 9)%nat -> is_perm n perm -> sum e -> vars (invariant_var (Z.of_nat n)) e ->
  exists e', invariant_poly_image (text e) (perm, false) = Ok (text e') /\ sum e' /\ vars (invariant_var (Z.of_nat n)) e' /\
  forall (K : Fld) (s s' : ps K) (d : dict K), length s = n -> different s -> sound s -> Forall plain s -> image (perm, false) s = Ok s' -> invariant_values s = Ok d ->
  exists d', invariant_values s' = Ok d' /\ value (fun x => dict_get x d') e' = value (fun x => dict_get x d) e.
Proof.
  intros n perm e N P S V. destruct (invariant_image_ok n perm false e N P S V) as (e' & E & S' & V' & H). exists e'. split; [exact E|]. split; [exact S'|]. split; [exact V'|].
  intros K s s' d L D So Pl I Ed. destruct (H K s s' d L D So Pl I Ed) as (d' & Ed' & _ & A & _). eauto.
Qed.
Print Assumptions C44_invariant.
Example C44_invariant_ex : (0 < 6 <= 9)%nat /\ is_perm 6 perm6 /\ sum inv14 /\ vars (invariant_var 6) inv14 /\
  length ex6 = 6%nat /\ different ex6 /\ sound ex6 /\ Forall plain ex6 /\
  text inv14 = lit "A1*B2-A3*B15+7*A4^2" /\
  invariant_poly_image (lit "A1*B2-A3*B15+7*A4^2") (perm6, false) = Ok (lit "(-A2)*B12-A11*B7+7*(-A6)^2") /\
  (exists s', image (perm6, false) ex6 = Ok s') /\
  exists d, invariant_values ex6 = Ok d /\ value (fun x => dict_get x d) inv14 = Some (g13 7).
Proof.
  split; [lia|]. split; [apply perm6_ok|]. split; [apply inv14_sum|]. split; [unfold inv14, inv14c, inhom14; cbn [vars]; unfold invariant_var; change (6 * (6 - 1) / 2) with 15; lia|]. split; [reflexivity|]. split; [apply ex6_different|]. split; [apply ex6_sound|]. split; [apply ex6_plain|].
  split; [vm_compute; reflexivity|]. split; [vm_compute; reflexivity|].
  split; [exists (get_ok [] (image (perm6, false) ex6)); fok|]. exists (get_ok [] (invariant_values ex6)). split; [fok|]. fsomeq.
Qed.

(* C44: with conjugation every invariant changes its sign, so that the value of a
   homogeneous polynomial of degree k is multiplied by (-1)^k. *)
Theorem C44_conjugated : forall n perm e, (0 < n <= 9)%nat -> is_perm n perm -> sum e -> vars (invariant_var (Z.of_nat n)) e ->
  exists e', invariant_poly_image (text e) (perm, true) = Ok (text e') /\ sum e' /\ vars (invariant_var (Z.of_nat n)) e' /\
  forall (K : Fld) (s s' : ps K) (d : dict K), length s = n -> different s -> sound s -> Forall plain s -> image (perm, true) s = Ok s' -> invariant_values s = Ok d ->
  exists d', invariant_values s' = Ok d' /\
  value (fun x => dict_get x d') e' = value (fun x => option_map fopp (dict_get x d)) e /\
  forall k, degree e k -> value (fun x => dict_get x d') e' = option_map (fun v => if Z.even k then v else (- v)%fld) (value (fun x => dict_get x d) e).
Proof.
  intros n perm e N P S V. destruct (invariant_image_ok n perm true e N P S V) as (e' & E & S' & V' & H). exists e'. split; [exact E|]. split; [exact S'|]. split; [exact V'|].
  intros K s s' d L D So Pl I Ed. destruct (H K s s' d L D So Pl I Ed) as (d' & Ed' & A & _ & B). exists d'. split; [exact Ed'|]. split; [exact A|]. intros k. exact (B k eq_refl).
Qed.
Print Assumptions C44_conjugated.
Example C44_conjugated_ex : (0 < 6 <= 9)%nat /\ is_perm 6 perm6 /\ sum inv14c /\ vars (invariant_var 6) inv14c /\ degree inv14c 3 /\
  length ex6 = 6%nat /\ different ex6 /\ sound ex6 /\ Forall plain ex6 /\
  text inv14c = lit "A1*B2*A9-A15^3" /\
  invariant_poly_image (lit "A1*B2*A9-A15^3") (perm6, true) = Ok (lit "(-B2)*A12*B3-B7^3") /\
  (exists s', image (perm6, true) ex6 = Ok s') /\
  exists d, invariant_values ex6 = Ok d /\ value (fun x => dict_get x d) inv14c = Some (g13 8).
Proof.
  split; [lia|]. split; [apply perm6_ok|]. split; [apply inv14c_sum|]. split; [unfold inv14, inv14c, inhom14; cbn [vars]; unfold invariant_var; change (6 * (6 - 1) / 2) with 15; lia|].
  split; [apply degree_sub; [apply (degree_mul _ _ 2 1); [apply (degree_mul _ _ 1 1)|]; constructor|apply (degree_pow _ _ 3 1); constructor]|].
  split; [reflexivity|]. split; [apply ex6_different|]. split; [apply ex6_sound|]. split; [apply ex6_plain|].
  split; [vm_compute; reflexivity|]. split; [vm_compute; reflexivity|].
  split; [exists (get_ok [] (image (perm6, true) ex6)); fok|]. exists (get_ok [] (invariant_values ex6)). split; [fok|]. fsomeq.
Qed.

(* Not so for polynomials that are not homogeneous: A1-10 is zero at the point, its image
   is not zero at the image of the point. *)
Theorem C44_inhomogeneous_refuted : exists (e e' : poly) (s s' : ps GF13) (d d' : dict GF13) (v : GF13),
  sum e /\ vars (invariant_var 6) e /\ length s = 6%nat /\ different s /\ sound s /\ Forall plain s /\
  invariant_poly_image (text e) (perm6, true) = Ok (text e') /\ image (perm6, true) s = Ok s' /\
  invariant_values s = Ok d /\ invariant_values s' = Ok d' /\
  value (fun x => dict_get x d) e = Some f0 /\ value (fun x => dict_get x d') e' = Some v /\ v <> f0.
Proof.
  exists inhom14, (Sub (Par (Neg (Var 66 2))) (Num 10)), ex6, (get_ok [] (image (perm6, true) ex6)), (get_ok [] (invariant_values ex6)), (get_ok [] (invariant_values (get_ok [] (image (perm6, true) ex6)))), (g13 6).
  split; [unfold inhom14; repeat sum_step|]. split; [unfold inv14, inv14c, inhom14; cbn [vars]; unfold invariant_var; change (6 * (6 - 1) / 2) with 15; lia|]. split; [reflexivity|]. split; [apply ex6_different|]. split; [apply ex6_sound|]. split; [apply ex6_plain|].
  split; [vm_compute; reflexivity|]. split; [fok|]. split; [fok|]. split; [fok|]. split; [fsomeq|]. split; [fsomeq|]. fneq.
Qed.
Print Assumptions C44_inhomogeneous_refuted.

(* C44, for ideals: the common zeros of the generators of an ideal go to common zeros of the
   generators of its image. *)
Theorem C44_lips_ideal : forall n perm conj es, (0 < n <= 9)%nat -> is_perm n perm ->
  (forall e, In e es -> sum e /\ vars (covariant_var (Z.of_nat n)) e) ->
  exists es', lips_image (map text es) (perm, conj) = Ok (map text es') /\ length es' = length es /\
  forall (K : Fld) (s s' : ps K) (d : dict K), length s = n -> different s -> sound s -> Forall plain s -> image (perm, conj) s = Ok s' -> analytical_subs_d s = Ok d ->
  (forall e, In e es -> value (fun x => dict_get x d) e = Some f0) ->
  exists d', analytical_subs_d s' = Ok d' /\ forall e', In e' es' -> value (fun x => dict_get x d') e' = Some f0.
Proof. exact lips_ideal_ok. Qed.
Print Assumptions C44_lips_ideal.
Theorem C44_spinor_ideal : forall n perm conj es, (0 < n <= 9)%nat -> is_perm n perm ->
  (forall e, In e es -> sum e /\ vars (invariant_var (Z.of_nat n)) e /\ (conj = true -> exists k, degree e k)) ->
  exists es', spinor_image (map text es) (perm, conj) = Ok (map text es') /\ length es' = length es /\
  forall (K : Fld) (s s' : ps K) (d : dict K), length s = n -> different s -> sound s -> Forall plain s -> image (perm, conj) s = Ok s' -> invariant_values s = Ok d ->
  (forall e, In e es -> value (fun x => dict_get x d) e = Some f0) ->
  exists d', invariant_values s' = Ok d' /\ forall e', In e' es' -> value (fun x => dict_get x d') e' = Some f0.
Proof. exact spinor_ideal_ok. Qed.
Print Assumptions C44_spinor_ideal.
(* the ideal of A1*B1-3*A2*B2 and A7*B3-4*A12*B2 *)
Definition gens14 : list poly :=
  [Sub (Mul (Var 65 1) (Var 66 1)) (Mul (Mul (Num 3) (Var 65 2)) (Var 66 2)); Sub (Mul (Var 65 7) (Var 66 3)) (Mul (Mul (Num 4) (Var 65 12)) (Var 66 2))].
Example C44_spinor_ideal_ex :
  (forall e, In e gens14 -> sum e /\ vars (invariant_var 6) e /\ (true = true -> exists k, degree e k)) /\
  spinor_image (map text gens14) (perm6, true) = Ok [lit "(-B2)*(-A2)-3*B12*A12"; lit "B4*A11-4*(-B14)*A12"] /\
  exists d, invariant_values ex6 = Ok d /\ forall e, In e gens14 -> value (fun x => dict_get x d) e = Some f0.
Proof.
  split; [|split; [vm_compute; reflexivity|]].
  - intros e [<-|[<-|[]]]; (split; [repeat sum_step|]; split; [cbn [vars]; unfold invariant_var; change (6 * (6 - 1) / 2) with 15; lia|]; intros _; exists 2);
      (apply degree_sub; [apply (degree_mul _ _ 1 1); constructor|apply (degree_mul _ _ 1 1); [apply (degree_mul _ _ 0 1)|]; constructor]).
  - exists (get_ok [] (invariant_values ex6)). split; [fok|]. intros e [<-|[<-|[]]]; fsomeq.
Qed.
Example C44_lips_ideal_ex : sum (Sub (Var 97 1) (Mul (Num 4) (Var 99 2))) /\ vars (covariant_var 6) (Sub (Var 97 1) (Mul (Num 4) (Var 99 2))) /\
  lips_image [lit "a1-4*c2"] (perm6, true) = Ok [lit "c3-4*a1"] /\
  exists d, analytical_subs_d ex6 = Ok d /\ value (fun x => dict_get x d) (Sub (Var 97 1) (Mul (Num 4) (Var 99 2))) = Some f0.
Proof.
  split; [repeat sum_step|]. split; [cbn; unfold covariant_var; lia|]. split; [vm_compute; reflexivity|]. exists (get_ok [] (analytical_subs_d ex6)). split; [fok|]. fsomeq.
Qed.
