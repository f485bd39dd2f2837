(* C27-C30, C32, C33: Gram determinants, det, arcs, Omega and Pi, change of field. *)
From Coq Require Import List ZArith Bool Lia Permutation Znumtheory.
From Verif Require Import Base Fld Particle ParticleSpec ParticleThm Index IndexThm Phase PhaseSpec PhaseThm Det DetSpec DetThm Arcs ArcsSpec ArcsThm Compute ComputeSpec ComputeThm ComputeThm2 ComputeThm3 ComputeThm4 ComputeThm5 GramThm ToField ToFieldThm FldInst ModP Properties03.
Import ListNotations.
Open Scope fld_scope.

(* six massless legs, momentum conserving *)
Definition ex6_sp : list (v2 GF13 * v2 GF13) :=
  [(V2 (g13 11) (g13 7), V2 (g13 3) (g13 2)); (V2 (g13 11) (g13 12), V2 (g13 6) (g13 12)); (V2 (g13 2) (g13 2), V2 (g13 11) (g13 4));
   (V2 (g13 10) (g13 6), V2 (g13 10) (g13 8)); (V2 (g13 6) (g13 11), V2 (g13 6) (g13 3)); (V2 (g13 4) (g13 8), V2 (g13 4) (g13 0))].
Definition ex6 : ps GF13 := from_spinors ex6_sp.
Lemma ex6_sound : sound ex6. Proof. apply from_spinors_sound. Qed.
Lemma ex6_reproduces : Forall (fun p => reproduces p) ex6. Proof. apply from_spinors_reproduces. Qed.
Lemma ex6_total : total_mom ex6 = mzero. Proof. fcomp. Qed.
Lemma ex6_leg k : (1 <= k <= 6)%Z -> massless_leg ex6 k.
Proof.
  intros H. destruct (getitem_ok ex6 k) as (p & G & _); [exact H|]. exists p. split; [exact G|].
  apply (proj1 (Forall_getitem _ _) ex6_reproduces k p G).
Qed.

(* C27: at five massless momentum conserving points delta5 is the square of tr5, for
   every choice and order of the four legs *)
Theorem C27_delta5_is_tr5_squared :
  forall (K : Fld) (s : ps K) (a b c d e : Z), length s = 5%nat -> sound s -> Forall (fun p => reproduces p) s ->
  total_mom s = mzero -> Permutation [a; b; c; d; e] [1; 2; 3; 4; 5]%Z ->
  exists x, scalar (compute s (ITr5 (leg a) (leg b) (leg c) (leg d))) = Ok x /\ scalar (compute s Id5) = Ok (x * x).
Proof.
  exact (fun K s a b c d e L S R T P => match delta5_any s a b c d e L S R T P with
    | ex_intro _ x (conj E D) => ex_intro _ x (conj (sVS (c_tr5 s (leg a) (leg b) (leg c) (leg d)) x E) (sVS (c_delta5 s) (x * x) D)) end).
Qed.
Print Assumptions C27_delta5_is_tr5_squared.
Example C27_ex : length ex5 = 5%nat /\ sound ex5 /\ Forall (fun p => reproduces p) ex5 /\ total_mom ex5 = mzero /\
  Permutation [5; 2; 4; 1; 3]%Z [1; 2; 3; 4; 5]%Z /\ exists x, scalar (compute ex5 Id5) = Ok x /\ x <> 0.
Proof.
  split; [reflexivity|]. split; [apply ex5_sound|]. split; [apply ex5_reproduces|]. split; [apply ex5_total|]. split.
  - apply NoDup_Permutation_bis; [repeat constructor; cbn; lia|cbn; lia|]. intros x I. cbn in *. lia.
  - exists (get_ok (0 : GF13) (scalar (compute ex5 Id5))). split; [fok|fneq].
Qed.

(* C28: the first n-1 corners may be listed in any order *)
Theorem C28_first_corners :
  forall (K : Fld) (s : ps K) (cs cs' : list (list Z)) (k : list Z) (x : K), sound s -> Permutation cs cs' ->
  scalar (compute s (IDelta (cs ++ [k]))) = Ok x -> scalar (compute s (IDelta (cs' ++ [k]))) = Ok x.
Proof. exact (fun K s cs cs' k x S P H => sVS _ _ (delta_first s cs cs' k x S P (sinv _ _ H))). Qed.
Print Assumptions C28_first_corners.
(* C28: all corners may be listed in any order when they add up to zero *)
Theorem C28_all_corners :
  forall (K : Fld) (s : ps K) (cs cs' : list (list Z)) (x : K), sound s -> s <> [] -> total_mom s = mzero ->
  Permutation (concat cs) (upto (length s)) -> Permutation cs cs' ->
  scalar (compute s (IDelta cs)) = Ok x -> scalar (compute s (IDelta cs')) = Ok x.
Proof. exact (fun K s cs cs' x S N T P P' H => sVS _ _ (gram_partition s cs cs' x S N T P P' (sinv _ _ H))). Qed.
Print Assumptions C28_all_corners.
(* C28: three corners *)
Theorem C28_three_corners :
  forall (K : Fld) (s : ps K) (A B C : list Z) (sA sB sAB sC : K), sound s ->
  scalar (compute s (IS A)) = Ok sA -> scalar (compute s (IS B)) = Ok sB -> scalar (compute s (IS (A ++ B))) = Ok sAB ->
  scalar (compute s (IS C)) = Ok sC ->
  scalar (compute s (IDelta [A; B; C])) = Ok ((sAB - sA - sB) / 2 * ((sAB - sA - sB) / 2) - sA * sB).
Proof.
  exact (fun K s A B C sA sB sAB sC S HA HB HAB HC => sVS _ _ (delta_three s A B C sA sB sAB sC S
    (sinv _ _ HA) (sinv _ _ HB) (sinv _ _ HAB) (sinv _ _ HC))).
Qed.
Print Assumptions C28_three_corners.
(* C28: the shorthand Delta_ijk is the three-corner determinant of its arcs *)
Theorem C28_shorthand :
  forall (K : Fld) (s : ps K) (i j k : Z) (A B C : list Z), sound s -> three_arcs (length s) i j k A B C ->
  compute s (IDelta3 [i; j; k]) = compute s (IDelta [A; B; C]) /\ exists x, scalar (compute s (IDelta3 [i; j; k])) = Ok x.
Proof.
  exact (fun K s i j k A B C S T => match delta3_arcs s i j k A B C S T with
    | conj E (ex_intro _ x Ex) => conj (f_equal (rmap VS) E) (ex_intro _ x (sVS _ _ Ex)) end).
Qed.
Print Assumptions C28_shorthand.
Lemma ex6_arcs : three_arcs (length ex6) 1 3 5 [1; 2]%Z [3; 4]%Z [5; 6]%Z.
Proof. apply (arcs_iff 6 1 3 5 7); try (cbn; lia). reflexivity. Qed.
Example C28_ex : sound ex6 /\ total_mom ex6 = mzero /\ three_arcs (length ex6) 1 3 5 [1; 2]%Z [3; 4]%Z [5; 6]%Z /\
  Permutation (concat [[1]; [2; 3]; [4]; [5; 6]]%Z) (upto (length ex6)) /\
  (exists x, scalar (compute ex6 (IDelta3 [1; 3; 5]%Z)) = Ok x /\ x <> 0) /\
  exists x, scalar (compute ex6 (IDelta [[4]; [2; 3]; [1]; [5; 6]]%Z)) = Ok x /\ x <> 0.
Proof.
  split; [apply ex6_sound|]. split; [apply ex6_total|]. split; [apply ex6_arcs|]. split; [reflexivity|]. split.
  - exists (get_ok (0 : GF13) (scalar (compute ex6 (IDelta3 [1; 3; 5]%Z)))). split; [fok|fneq].
  - exists (get_ok (0 : GF13) (scalar (compute ex6 (IDelta [[4]; [2; 3]; [1]; [5; 6]]%Z)))). split; [fok|fneq].
Qed.

(* C29: the recursive expansion is the sum over all permutations *)
Theorem C29_det :
  forall (K : Fld) (n : nat) (m : mat K) (perms : list (list nat)), (1 <= n)%nat -> all_perms n perms ->
  det n m = leibniz perms m.
Proof. exact (fun K n m perms => det_leibniz n m perms). Qed.
Print Assumptions C29_det.
Example C29_ex : all_perms 3 [[0; 1; 2]; [0; 2; 1]; [1; 0; 2]; [1; 2; 0]; [2; 0; 1]; [2; 1; 0]]%nat /\
  (forall n, exists perms, all_perms n perms) /\
  det 3 (fun i j => g13 (Z.of_nat (i * i + 2 * i * j * j + j + 1))) <> 0.
Proof.
  split; [|split; [exact perms_exist|fneq]]. split.
  - repeat constructor; cbn; intuition discriminate.
  - intros l. split.
    + cbn. intros [<-|[<-|[<-|[<-|[<-|[<-|[]]]]]]]; (apply NoDup_Permutation_bis; [repeat constructor; cbn; lia|cbn; lia|intros x I; cbn in *; lia]).
    + intros P. assert (L := Permutation_length P). destruct l as [|a [|b [|c [|]]]]; try discriminate.
      assert (ND := Permutation_NoDup (Permutation_sym P) (seq_NoDup 3 0)).
      assert (Ia : In a (seq 0 3)) by (apply (Permutation_in _ P); cbn; auto).
      assert (Ib : In b (seq 0 3)) by (apply (Permutation_in _ P); cbn; auto).
      assert (Ic : In c (seq 0 3)) by (apply (Permutation_in _ P); cbn; auto).
      apply NoDup_cons_iff in ND as [N1 ND]. apply NoDup_cons_iff in ND as [N2 _].
      cbn in Ia, Ib, Ic, N1, N2. cbn.
      destruct Ia as [<-|[<-|[<-|[]]]], Ib as [<-|[<-|[<-|[]]]], Ic as [<-|[<-|[<-|[]]]]; try tauto.
Qed.

(* C30: for different legs the loop ends with exactly the three arcs *)
Theorem C30_three_arcs :
  forall (n : nat) (i j k : Z) (fuel : nat), (1 <= i <= Z.of_nat n)%Z -> (1 <= j <= Z.of_nat n)%Z -> (1 <= k <= Z.of_nat n)%Z ->
  i <> j -> j <> k -> i <> k -> (n < fuel)%nat ->
  (exists A B C, arcs fuel (Z.of_nat n) [i; j; k] = Ok (A, B, C)) /\
  (forall A B C, arcs fuel (Z.of_nat n) [i; j; k] = Ok (A, B, C) <-> three_arcs n i j k A B C).
Proof.
  exact (fun n i j k fuel Ri Rj Rk D1 D2 D3 F => conj
    match arcs_three n i j k fuel Ri Rj Rk D1 D2 D3 F with ex_intro _ A (ex_intro _ B (ex_intro _ C (conj E _))) =>
      ex_intro _ A (ex_intro _ B (ex_intro _ C E)) end
    (fun A B C => arcs_iff n i j k fuel A B C Ri Rj Rk D1 D2 D3 F)).
Qed.
Print Assumptions C30_three_arcs.
Example C30_ex : arcs 8 7 [6; 2; 4]%Z = Ok ([6; 7; 1], [2; 3], [4; 5])%Z /\ arcs 8 7 [6; 4; 2]%Z = Ok ([6; 7; 1], [4; 5], [2; 3])%Z.
Proof. split; reflexivity. Qed.
(* finding: labels that are not legs make the loop run forever *)
Theorem C30_out_of_range_refuted :
  exists i j k : Z, i <> j /\ j <> k /\ i <> k /\ forall fuel, arcs fuel 6 [i; j; k] = Err Diverges.
Proof.
  exists 1%Z, 7%Z, 8%Z. split; [discriminate|]. split; [discriminate|]. split; [discriminate|].
  exact (fun fuel => arcs_stuck 6 1 7 8 fuel eq_refl eq_refl eq_refl).
Qed.
Print Assumptions C30_out_of_range_refuted.
(* finding: a repeated label gives overlapping lists *)
Theorem C30_repeated_label_refuted :
  exists A B C, arcs 7 6 [1; 1; 1]%Z = Ok (A, B, C) /\ ~ Permutation (A ++ B ++ C) (upto 6).
Proof.
  exists [1; 2; 3; 4; 5; 6]%Z, [1]%Z, [1]%Z. split; [reflexivity|]. intros P. apply Permutation_length in P. discriminate.
Qed.
Print Assumptions C30_repeated_label_refuted.

(* C32: the values of Omega and Pi in terms of the Mandelstam invariants of the arcs *)
Theorem C32_Omega :
  forall (K : Fld) (s : ps K) (i j k : Z) (A B C : list Z), three_arcs (length s) i j k (i :: A) B C ->
  exists sA sB sC sCi : K, scalar (compute s (IS (i :: A))) = Ok sA /\ scalar (compute s (IS B)) = Ok sB /\
    scalar (compute s (IS C)) = Ok sC /\ scalar (compute s (IS (C ++ [i]))) = Ok sCi /\
    scalar (compute s (IOm [i; j; k])) = Ok (2 * sC * sB - (sC + sB - sA) * sCi).
Proof.
  exact (fun K s i j k A B C T => match omega_arcs s i j k A B C T with
    | ex_intro _ a (ex_intro _ b (ex_intro _ c (ex_intro _ d (conj Ea (conj Eb (conj Ec (conj Ed E))))))) =>
      ex_intro _ a (ex_intro _ b (ex_intro _ c (ex_intro _ d (conj (sVS _ _ Ea) (conj (sVS _ _ Eb) (conj (sVS _ _ Ec) (conj (sVS _ _ Ed) (sVS _ _ E)))))))) end).
Qed.
Print Assumptions C32_Omega.
Theorem C32_Pi :
  forall (K : Fld) (s : ps K) (i i' j k : Z) (A B C : list Z), three_arcs (length s) i j k (i :: i' :: A) B C ->
  exists sCi sCi' : K, scalar (compute s (IS (C ++ [i]))) = Ok sCi /\ scalar (compute s (IS (C ++ [i']))) = Ok sCi' /\
    scalar (compute s (IPi [i; j; k])) = Ok (sCi - sCi').
Proof.
  exact (fun K s i i' j k A B C T => match pi_arcs s i i' j k A B C T with
    | ex_intro _ a (ex_intro _ b (conj Ea (conj Eb E))) =>
      ex_intro _ a (ex_intro _ b (conj (sVS _ _ Ea) (conj (sVS _ _ Eb) (sVS _ _ E)))) end).
Qed.
Print Assumptions C32_Pi.
(* finding: a first arc of a single leg has no second leg to subtract *)
Theorem C32_Pi_one_leg_refuted :
  exists (s : ps GF13) (i j k : Z) (B C : list Z), three_arcs (length s) i j k [i] B C /\ compute s (IPi [i; j; k]) = Err IndexError.
Proof.
  assert (T : three_arcs (length ex6) 1 2 5 [1]%Z [2; 3; 4]%Z [5; 6]%Z) by (apply (arcs_iff 6 1 2 5 7); try lia; reflexivity).
  exists ex6, 1%Z, 2%Z, 5%Z, [2; 3; 4]%Z, [5; 6]%Z. split; [exact T|].
  exact (f_equal (rmap VS) (pi_short_arcs ex6 1 2 5 [2; 3; 4]%Z [5; 6]%Z T)).
Qed.
Print Assumptions C32_Pi_one_leg_refuted.
(* C32: for a first arc i, i' of massless legs at a momentum conserving point, Pi and
   Omega factorise the three-mass Gram determinant: with f = <i|C|i'], g = <i'|C|i],
   4 Delta = Pi^2 + 4 f g and 2 Omega = - 4 Delta - (s_B + s_C - s_A) Pi *)
Theorem C32_Omega_Pi_chains :
  forall (K : Fld) (s : ps K) (i i' j k c : Z) (B cs : list Z), sound s -> total_mom s = mzero ->
  massless_leg s i -> massless_leg s i' -> three_arcs (length s) i j k [i; i'] B (c :: cs) ->
  exists om pi de sA sB sC f g, c_Omega s [i; j; k] = Ok om /\ c_Pi s [i; j; k] = Ok pi /\ c_delta3 s [i; j; k] = Ok de /\
    c_S s [i; i'] = Ok sA /\ c_S s B = Ok sB /\ c_S s (c :: cs) = Ok sC /\
    c_chain s OAng i [esum c cs] i' CSq = Ok f /\ c_chain s OAng i' [esum c cs] i CSq = Ok g /\
    2 * 2 * de = pi * pi + 2 * 2 * f * g /\ 2 * om = - (2 * 2 * de) - (sB + sC - sA) * pi.
Proof. exact (fun K s i i' j k c B cs => omega_pi_arcs s i i' j k B c cs). Qed.
Print Assumptions C32_Omega_Pi_chains.
Example C32_ex : sound ex6 /\ total_mom ex6 = mzero /\ massless_leg ex6 3 /\ massless_leg ex6 4 /\
  three_arcs (length ex6) 3 5 1 [3; 4]%Z [5; 6]%Z [1; 2]%Z /\
  (exists x, c_Omega ex6 [3; 5; 1]%Z = Ok x /\ x <> 0) /\ exists x, c_Pi ex6 [3; 5; 1]%Z = Ok x /\ x <> 0.
Proof.
  split; [apply ex6_sound|]. split; [apply ex6_total|]. split; [apply ex6_leg; lia|]. split; [apply ex6_leg; lia|].
  split; [apply (arcs_iff 6 3 5 1 7); try (cbn; lia); reflexivity|]. split.
  - exists (get_ok (0 : GF13) (c_Omega ex6 [3; 5; 1]%Z)). split; [fok|fneq].
  - exists (get_ok (0 : GF13) (c_Pi ex6 [3; 5; 1]%Z)). split; [fok|fneq].
Qed.

(* C33: any change of numbers that respects 0, 1, +, -, * and halving commutes with
   the evaluation of every string, values and exceptions alike *)
Theorem C33_to_field :
  forall (K K' : Fld) (R : K -> K' -> Prop) (field : K -> result K') (s : ps K) (s' : ps K') (e : inv),
  ring_rel K K' R -> (forall x y, field x = Ok y -> R x y) -> sound s -> Forall (fun p => reproduces p) s ->
  ps_to_field field s = Ok s' -> rrel (vrel R) (compute s e) (compute s' e).
Proof. exact (fun K K' R field s s' e RR FR => to_field_compute R RR field FR s s' e). Qed.
Print Assumptions C33_to_field.
(* C33: rationals modulo an odd prime *)
Theorem C33_mod_p :
  forall (p : Z) (P : prime p) (O : p <> 2%Z) (s : ps QF) (s' : ps (GFF p P O)) (e : inv),
  sound s -> Forall (fun q => reproduces q) s -> ps_to_field (reduce p P O) s = Ok s' ->
  forall x, scalar (compute s e) = Ok x -> exists y, reduce p P O x = Ok y /\ scalar (compute s' e) = Ok y.
Proof. exact reduce_compute. Qed.
Print Assumptions C33_mod_p.
Definition exq : ps QF := from_spinors
  [(V2 (q 1 2) (q 3 1), V2 (q 2 1) (q (-5) 3)); (V2 (q 7 1) (q 4 9), V2 (q 1 1) (q 6 7)); (V2 (q 1 1) (q 2 1), V2 (q 1 4) (q 9 1));
   (V2 (q 5 8) (q (-2) 1), V2 (q 1 3) (q 11 10))].
Example C33_ex : sound exq /\ Forall (fun p => reproduces p) exq /\
  (exists s', ps_to_field (reduce 13 (primeb_ok 13 eq_refl) ltac:(discriminate)) exq = Ok s') /\
  exists x, scalar (compute exq (IChain OAng 1 [leg 2; eplus (leg 3) (leg 4)] 4 CAng)) = Ok x /\ x <> 0.
Proof.
  split; [apply from_spinors_sound|]. split; [apply from_spinors_reproduces|]. split.
  - exists (get_ok [] (ps_to_field (reduce 13 (primeb_ok 13 eq_refl) ltac:(discriminate)) exq)). fok.
  - exists (get_ok (0 : QF) (scalar (compute exq (IChain OAng 1 [leg 2; eplus (leg 3) (leg 4)] 4 CAng)))). split; [fok|fneq].
Qed.
(* finding: a massive leg loses its mass, even if the field does not change *)
Theorem C33_massive_refuted :
  exists (s : ps GF13) (x : GF13), sound s /\ scalar (compute s (IM 1)) = Ok x /\ x <> 0 /\
    rbind (ps_to_field (fun y : GF13 => Ok y) s) (fun s' => scalar (compute s' (IM 1))) = Ok 0.
Proof.
  exists [ex_massive], (get_ok (0 : GF13) (scalar (compute [ex_massive] (IM 1)))). split; [|split; [fok|split; [fneq|fokeq]]].
  apply Forall_cons; [apply (step_r2 Asymmetric), new_spinors_cons|apply Forall_nil].
Qed.
Print Assumptions C33_massive_refuted.
