(* C80: chains between massive spinors.  C81: chains with a massive spinor at one end. *)
From Coq Require Import Ascii String.
From Coq Require Import List ZArith Bool Lia.
From Verif Require Import Base Fld FldInst Particle Phase Compute ComputeSpec ComputeThm ComputeThm4 Symm Str Masses Parse Text TextSpec Tensor TensorSpec TensorChainThm TensorMixedThm Properties24.
Import ListNotations.
Open Scope Z_scope.

(* C80: ⟨i_|P|j^] is minus ⟨i+1|P|j+1] *)
Theorem C80_angle : forall (K : Fld) (s : ps K) A f i j k l e t p, spinors_all s -> angle_open p -> In k lower -> In l upper ->
  shows_entry e t -> legs_in s e -> end_in s i (i + 1) -> end_in s j (j + 1) ->
  exists v, compute s (IChain OAng (i + 1) [e] (j + 1) CSq) = Ok (VS v) /\
    compute_wide (S (S f)) s A (opening p ++ dec i ++ [k] ++ lit "|" ++ t ++ lit "|" ++ dec j ++ [l] ++ lit "]") = Ok (XNum (VElt (- v)%fld)).
Proof. intros K s A f i j k l e t p SP. exact (chain_angle s A f SP i j k l e t p). Qed.
Print Assumptions C80_angle.
(* [i^|P|j_⟩ is minus [i+1|P|j+1⟩, when i+1 is written with one digit *)
Theorem C80_square : forall (K : Fld) (s : ps K) A f i j k l e t q, spinors_all s -> sound s -> angle_close q -> In k upper -> In l lower ->
  shows_entry e t -> legs_in s e -> end_in s i (i + 1) -> end_in s j (j + 1) -> i <= 8 ->
  exists v, compute s (IChain OSq (i + 1) [e] (j + 1) CAng) = Ok (VS v) /\
    compute_wide (S (S f)) s A (lit "[" ++ dec i ++ [k] ++ lit "|" ++ t ++ lit "|" ++ dec j ++ [l] ++ closing q) = Ok (XNum (VElt (- v)%fld)).
Proof. intros K s A f i j k l e t q SP C. exact (chain_square s A f SP i j k l e t q (consistent_barred s C)). Qed.
Print Assumptions C80_square.
(* such a chain is the same number read from either end *)
Theorem C80_reversed : forall (K : Fld) (s : ps K) A f i j k l e t p q, spinors_all s -> sound s -> angle_open p -> angle_close q -> In k lower -> In l upper ->
  shows_entry e t -> legs_in s e -> end_in s i (i + 1) -> end_in s j (j + 1) -> j <= 8 ->
  exists v, compute_wide (S (S f)) s A (opening p ++ dec i ++ [k] ++ lit "|" ++ t ++ lit "|" ++ dec j ++ [l] ++ lit "]") = Ok (XNum (VElt v)) /\
    compute_wide (S (S f)) s A (lit "[" ++ dec j ++ [l] ++ lit "|" ++ t ++ lit "|" ++ dec i ++ [k] ++ closing q) = Ok (XNum (VElt v)).
Proof. intros K. exact reversed. Qed.
Print Assumptions C80_reversed.
(* with two digits it is not: 9^ stands for leg 10, and the pattern that moves the indices of the
   middle of a chain after a square bracket expects a single digit there (particles_eval.py:64, 74) *)
Theorem C80_two_digits_refuted : exists (s : ps GF13) x y, spinors_all s /\ sound s /\
  compute_wide 2 s [] (lit "[9^|5|1_" ++ [10217]) = Ok (XNum (VElt x)) /\
  compute_wide 2 s [] (10216 :: lit "1_|5|9^]") = Ok (XNum (VElt y)) /\ x <> y.
Proof.
  exists ex12, (g13 0), (g13 9). split; [apply all_spinors_ok; vm_compute; reflexivity|]. split; [apply from_spinors_sound|]. split; [apply elt_ok; vm_compute; reflexivity|]. split; [apply elt_ok; vm_compute; reflexivity|]. fneq.
Qed.
Print Assumptions C80_two_digits_refuted.
(* C81: either end may be massless or massive: a chain from an angle spinor to a square one is the chain of
   the legs that the ends stand for, with a minus sign if the square end is massive *)
Theorem C81_ends_angle : forall (K : Fld) (s : ps K) A f i i' t j j' u e m p, spinors_all s -> angle_open p -> end_text lower i i' t -> end_text upper j j' u ->
  shows_entry e m -> legs_in s e -> end_in s i i' -> end_in s j j' -> mixed_ok i i' j j' e m -> (i = i' -> j = j' -> p = OAng) ->
  exists v, compute s (IChain OAng i' [e] j' CSq) = Ok (VS v) /\
    compute_wide (S (S f)) s A (opening p ++ t ++ lit "|" ++ m ++ lit "|" ++ u ++ lit "]") = Ok (XNum (VElt (spin_sign j j' * v)%fld)).
Proof. intros K s A f i i' t j j' u e m p SP. exact (ends_angle s A f SP i i' t j j' u e m p). Qed.
Print Assumptions C81_ends_angle.
(* the same from a square spinor to an angle one *)
Theorem C81_ends_square : forall (K : Fld) (s : ps K) A f i i' t j j' u e m q, spinors_all s -> sound s -> angle_close q -> end_text upper i i' t -> end_text lower j j' u ->
  shows_entry e m -> legs_in s e -> end_in s i i' -> end_in s j j' -> mixed_ok i i' j j' e m -> (i = i' -> j = j' -> q = CAng) -> (i <> i' -> j <> j' -> i <= 8) ->
  exists v, compute s (IChain OSq i' [e] j' CAng) = Ok (VS v) /\
    compute_wide (S (S f)) s A (lit "[" ++ t ++ lit "|" ++ m ++ lit "|" ++ u ++ closing q) = Ok (XNum (VElt (spin_sign i i' * v)%fld)).
Proof. intros K s A f i i' t j j' u e m q SP C. exact (ends_square s A f SP i i' t j j' u e m q (consistent_barred s C)). Qed.
Print Assumptions C81_ends_square.
Theorem C81_ends_reversed : forall (K : Fld) (s : ps K) A f i i' t j j' u e m p q, spinors_all s -> sound s -> angle_open p -> angle_close q -> end_text lower i i' t -> end_text upper j j' u ->
  shows_entry e m -> legs_in s e -> end_in s i i' -> end_in s j j' -> mixed_ok i i' j j' e m -> mixed_ok j j' i i' e m -> (i = i' -> j = j' -> p = OAng /\ q = CAng) -> (i <> i' -> j <> j' -> j <= 8) ->
  exists v, compute_wide (S (S f)) s A (opening p ++ t ++ lit "|" ++ m ++ lit "|" ++ u ++ lit "]") = Ok (XNum (VElt v)) /\
    compute_wide (S (S f)) s A (lit "[" ++ u ++ lit "|" ++ m ++ lit "|" ++ t ++ closing q) = Ok (XNum (VElt v)).
Proof. intros K. exact ends_reversed. Qed.
Print Assumptions C81_ends_reversed.
(* without mixed_ok the patterns for open spinors take the massless end apart from the sum, and the
   text left over is not Python: a chain that is read from one end is rejected from the other, and so
   is one with a single label in round brackets (particles_eval.py:31-35) *)
Theorem C81_mixed_refuted : exists (s : ps GF13) x, spinors_all s /\ sound s /\
  compute_wide 2 s [] (10216 :: lit "3|5+12|4^]") = Ok (XNum (VElt x)) /\ compute_wide 2 s [] (lit "[4^|5+12|3" ++ [10217]) = Err SyntaxError /\
  compute_wide 2 s [] (10216 :: lit "3|(5)|4^]") = Err SyntaxError.
Proof.
  exists ex12, (g13 6). split; [apply all_spinors_ok; vm_compute; reflexivity|]. split; [apply from_spinors_sound|]. split; [apply elt_ok; vm_compute; reflexivity|]. split; ferr.
Qed.
Print Assumptions C81_mixed_refuted.
Example C81_ends_ex : spinors_all ex12 /\ sound ex12 /\ end_text lower 11 11 (lit "11") /\ end_text upper 10 11 (lit "10^") /\ shows_entry (5, [(true, 12); (false, 3)]) (lit "(5+12-3)") /\ legs_in ex12 (5, [(true, 12); (false, 3)]) /\
  end_in ex12 11 11 /\ end_in ex12 10 11 /\ mixed_ok 11 11 10 11 (5, [(true, 12); (false, 3)]) (lit "(5+12-3)") /\ mixed_ok 10 11 11 11 (5, [(true, 12); (false, 3)]) (lit "(5+12-3)") /\
  compute_wide 2 ex12 [] (lit "<11|(5+12-3)|10^]") = Ok (XNum (VElt (g13 6))) /\ scalar (compute ex12 (IChain OAng 11 [(5, [(true, 12); (false, 3)])] 11 CSq)) = Ok (g13 (-6)).
Proof.
  split; [apply all_spinors_ok; vm_compute; reflexivity|]. split; [apply from_spinors_sound|]. split; [apply (massless_end lower 11)|]. split; [apply (massive_end upper 10 94); cbn; auto|].
  split; [apply (round (5, [(true, 12); (false, 3)])); split; [discriminate|repeat constructor; discriminate]|].
  split; [split; [split; vm_compute; discriminate|repeat constructor; vm_compute; discriminate]|]. split; [split; vm_compute; discriminate|]. split; [split; vm_compute; discriminate|].
  split; [split; [intros _ _; split; [vm_compute; discriminate|discriminate]|intros H; exfalso; apply H; reflexivity]|]. split; [split; [discriminate|intros _ _; split; [vm_compute; discriminate|discriminate]]|].
  split; [apply elt_ok; vm_compute; reflexivity|]. fokeq.
Qed.
Example C80_ex : spinors_all ex12 /\ sound ex12 /\ shows_entry (12, [(true, 6); (false, 3)]) (lit "(12+6-3)") /\ legs_in ex12 (12, [(true, 6); (false, 3)]) /\ end_in ex12 1 2 /\ end_in ex12 8 9 /\
  compute_wide 2 ex12 [] (lit "<1_|(12+6-3)|8^]") = Ok (XNum (VElt (g13 4))) /\ compute_wide 2 ex12 [] (lit "[8u|(12+6-3)|1d>") = Ok (XNum (VElt (g13 4))) /\
  scalar (compute ex12 (IChain OAng 2 [(12, [(true, 6); (false, 3)])] 9 CSq)) = Ok (g13 (-4)).
Proof.
  split; [apply all_spinors_ok; vm_compute; reflexivity|]. split; [apply from_spinors_sound|].
  split; [apply (round (12, [(true, 6); (false, 3)])); split; [discriminate|repeat constructor; discriminate]|].
  split; [split; [split; vm_compute; discriminate|repeat constructor; vm_compute; discriminate]|]. split; [split; vm_compute; discriminate|]. split; [split; vm_compute; discriminate|].
  split; [apply elt_ok; vm_compute; reflexivity|]. split; [apply elt_ok; vm_compute; reflexivity|]. fokeq.
Qed.
