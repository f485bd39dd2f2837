(* C13-C15, C42, C43: permutations of a point, copies, symmetries. *)
From Coq Require Import List ZArith Bool Lia Permutation.
From Verif Require Import Base Fld Particle ParticleSpec ParticleThm Index IndexThm Phase PhaseSpec PhaseThm Det Arcs Compute ComputeSpec ComputeThm ComputeThm4 ComputeThm5 Symm SymmSpec SymmThm FldInst Properties03 Properties04.
Import ListNotations.
Open Scope fld_scope.

Lemma ex6_different : different ex6.
Proof. apply distinctb_ok. vm_compute. reflexivity. Qed.
Lemma ex6_plain : Forall plain ex6. Proof. apply from_spinors_plain. Qed.
Definition perm6 : list Z := [3; 1; 6; 5; 2; 4]%Z.
Lemma perm6_ok : is_perm 6 perm6.
Proof. apply NoDup_Permutation_bis; [repeat constructor; cbn; lia|cbn; lia|]. intros x I. cbn in *. lia. Qed.

(* C13: particle perm(i) of the image is particle i of the point, and this determines
   the image *)
Theorem C13_image :
  forall (K : Fld) (n : nat) (perm : list Z) (s s' : ps K), (0 < n <= 9)%nat -> is_perm n perm -> length s = n -> different s ->
  (exists t, image (perm, false) s = Ok t) /\
  (image (perm, false) s = Ok s' <-> length s' = n /\ forall k, getitem s' (papp perm k) = getitem s k).
Proof.
  intros K n perm s s' R P L D. unfold image. cbn [fst snd]. split.
  - destruct (image_perm s perm n P L (proj1 R) D) as (t & E & _). exists t. rewrite E. reflexivity.
  - rewrite <- (image_iff s s' perm n P L (proj1 R) D). destruct (image_str perm s); reflexivity.
Qed.
Print Assumptions C13_image.
Theorem C13_identity :
  forall (K : Fld) (n : nat) (s : ps K), (0 < n <= 9)%nat -> length s = n -> different s -> image (identity n) s = Ok s.
Proof. exact (fun K n s => @image_id K s n). Qed.
Print Assumptions C13_identity.
Theorem C13_compose :
  forall (K : Fld) (n : nat) (p q : list Z) (b c : bool) (s : ps K), (0 < n <= 9)%nat -> is_perm n p -> is_perm n q -> length s = n ->
  different s -> sound s -> Forall plain s ->
  rbind (image (q, c) s) (image (p, b)) = image (compose p q, xorb b c) s.
Proof. exact (fun K n p q b c s R P Q L => image_compose s p q b c n P Q L (proj1 R)). Qed.
Print Assumptions C13_compose.
Theorem C13_inverse :
  forall (K : Fld) (n : nat) (p : list Z) (b : bool) (s : ps K), (0 < n <= 9)%nat -> is_perm n p -> length s = n ->
  different s -> sound s -> Forall plain s ->
  rbind (inverse_rule (p, b)) (fun r => rbind (image (p, b) s) (image r)) = Ok s.
Proof. exact (fun K n p b s R P L => image_inverse s p b n (proj2 R) P L (proj1 R)). Qed.
Print Assumptions C13_inverse.
(* conjugation and permutation commute, for every string and every point *)
Theorem C13_conjugation_commutes :
  forall (K : Fld) (perm : pstring) (s : ps K), image (perm, false) (ps_flip s) = image (perm, true) s.
Proof. intros K perm s. unfold image. cbn [fst snd]. rewrite image_flip. destruct (image_str perm s); reflexivity. Qed.
Print Assumptions C13_conjugation_commutes.
(* whatever the string, an image that is returned consists of the particles of the point *)
Theorem C13_rearrangement :
  forall (K : Fld) (perm : pstring) (s s' : ps K), image (perm, false) s = Ok s' -> Permutation s' s.
Proof.
  intros K perm s s'. unfold image. cbn [fst snd]. destruct (image_str perm s) as [t|] eqn:E; [|discriminate]. cbn. intros [= <-].
  exact (image_rearranges perm s t E).
Qed.
Print Assumptions C13_rearrangement.
Example C13_ex : (0 < 6 <= 9)%nat /\ is_perm 6 perm6 /\ length ex6 = 6%nat /\ different ex6 /\ sound ex6 /\ Forall plain ex6 /\
  exists s', image (perm6, true) ex6 = Ok s' /\ r2 (nth 2 s' blank) = mT (r2 (nth 0 ex6 blank)) /\ r2 (nth 2 s' blank) <> r2 (nth 2 ex6 blank).
Proof.
  split; [lia|]. split; [apply perm6_ok|]. split; [reflexivity|]. split; [apply ex6_different|]. split; [apply ex6_sound|]. split; [apply ex6_plain|].
  exists (get_ok [] (image (perm6, true) ex6)). split; [fok|]. split; [fcomp|]. intros E. apply (f_equal (fun m => m00 m)) in E. revert E. fneq.
Qed.
(* with coinciding momenta the clause about particle perm(i) fails: list.index finds
   the first of two equal particles (particles.py:149) *)
Theorem C13_equal_momenta_refuted :
  exists (s : ps QF) (perm : list Z), is_perm 4 perm /\ length s = 4%nat /\ sound s /\
  (exists s', image (perm, false) s = Ok s' /\ exists k, getitem s' (papp perm k) <> getitem s k).
Proof.
  exists (from_spinors [(V2 1 0, V2 1 0); (V2 0 1, V2 1 0); (V2 0 1, V2 0 1); (V2 1 0, V2 1 0)]), [1; 2; 3; 4]%Z.
  split; [apply Permutation_refl|]. split; [reflexivity|]. split; [apply from_spinors_sound|].
  exists (get_ok [] (image ([1; 2; 3; 4]%Z, false) (from_spinors [(V2 1 0, V2 1 0); (V2 0 1, V2 1 0); (V2 0 1, V2 0 1); (V2 1 0, V2 1 0)]))). split; [fok|].
  exists 2%Z. apply (bool_neq (fun r => match r with Ok p => feqb (m11 (r2 p)) 0 | Err _ => false end)). vm_compute. reflexivity.
Qed.
Print Assumptions C13_equal_momenta_refuted.

(* C14: copies.  Full claim: copy s = Ok s for every s.  It holds for at most nine legs
   with pairwise different momenta *)
Theorem C14_copy_partial :
  forall (K : Fld) (s : ps K), (0 < length s <= 9)%nat -> different s -> copy s = Ok s.
Proof. exact (fun K s R D => @image_id K s (length s) R eq_refl D). Qed.
Print Assumptions C14_copy_partial.
Example C14_copy_ex : (0 < length ex6 <= 9)%nat /\ different ex6.
Proof. split; [cbn; lia|apply ex6_different]. Qed.
(* and fails at every point with ten or more legs with different momenta: the string of
   the identity has two characters from leg ten on, so that leg ten is sorted next to
   leg one *)
Theorem C14_ten_legs :
  forall (K : Fld) (s : ps K), (10 <= length s)%nat -> different s -> copy s <> Ok s.
Proof. exact (fun K s => @copy_wrong K s). Qed.
Print Assumptions C14_ten_legs.
Definition ex10 : ps GF13 := from_spinors (map (fun k => (V2 1 (g13 k), V2 (g13 2) 1)) [0; 1; 2; 3; 4; 5; 6; 7; 8; 9]%Z).
Lemma ex10_different : different ex10.
Proof. apply distinctb_ok. vm_compute. reflexivity. Qed.
Theorem C14_ten_legs_refuted :
  exists s : ps GF13, sound s /\ different s /\ copy s <> Ok s /\ exists s', copy s = Ok s' /\ r2 (nth 1 s' blank) = r2 (nth 9 s blank).
Proof.
  exists ex10. split; [apply from_spinors_sound|]. split; [apply ex10_different|]. split; [apply copy_wrong; [cbn; lia|apply ex10_different]|].
  exists (get_ok [] (copy ex10)). split; [fok|fcomp].
Qed.
Print Assumptions C14_ten_legs_refuted.
Theorem C14_equal_momenta_refuted :
  exists s : ps QF, length s = 4%nat /\ sound s /\ copy s <> Ok s.
Proof.
  exists (from_spinors [(V2 1 0, V2 1 0); (V2 0 1, V2 1 0); (V2 0 1, V2 0 1); (V2 1 0, V2 1 0)]).
  split; [reflexivity|]. split; [apply from_spinors_sound|].
  apply (bool_neq (fun r => match r with Ok s => feqb (m11 (r2 (nth 1 s blank))) 0 | Err _ => false end)). vm_compute. reflexivity.
Qed.
Print Assumptions C14_equal_momenta_refuted.
Theorem C14_empty_refuted : forall K : Fld, @copy K [] = Err ValueError.
Proof. reflexivity. Qed.
Print Assumptions C14_empty_refuted.

(* C15: relabelling a string and permuting the point commute, for every string whose
   letters are leg labels *)
Theorem C15_relabel :
  forall (K : Fld) (n : nat) (perm : list Z) (s s' : ps K) (e : inv), (0 < n <= 9)%nat -> is_perm n perm -> length s = n -> different s ->
  labelled e -> image (perm, false) s = Ok s' -> compute s' (relabel (papp perm) e) = compute s e.
Proof. exact (fun K n perm s s' e R P L => relabel_image s s' perm n e (proj2 R) P L (proj1 R)). Qed.
Print Assumptions C15_relabel.
(* with conjugation: brackets exchanged, order reversed *)
Theorem C15_relabel_conjugate :
  forall (K : Fld) (n : nat) (perm : list Z) (s s' : ps K) (e : inv) (x : K), (0 < n <= 9)%nat -> is_perm n perm -> length s = n -> different s ->
  sound s -> Forall plain s -> labelled e -> flippable e -> image (perm, true) s = Ok s' ->
  (scalar (compute s' (relabel (papp perm) e)) = Ok x <-> scalar (compute s (flip_str e)) = Ok x).
Proof. exact (fun K n perm s s' e x R P L => relabel_image_flip s s' perm n e x (proj2 R) P L (proj1 R)). Qed.
Print Assumptions C15_relabel_conjugate.
Definition ch6 : inv := IChain OAng 1 [eplus (leg 2) (leg 3)] 4 CSq.
Example C15_ex : labelled ch6 /\ flippable ch6 /\
  relabel (papp perm6) ch6 = IChain OAng 3 [eplus (leg 1) (leg 6)] 5 CSq /\
  exists s' x, image (perm6, true) ex6 = Ok s' /\ scalar (compute s' (relabel (papp perm6) ch6)) = Ok x /\ x <> 0 /\
   exists y, scalar (compute ex6 ch6) = Ok y /\ y <> x.
Proof.
  split; [exact I|]. split; [repeat split; discriminate|]. split; [reflexivity|].
  exists (get_ok [] (image (perm6, true) ex6)), (get_ok (0 : GF13) (scalar (compute ex6 (flip_str ch6)))).
  split; [fok|]. split; [fokeq|]. split; [fneq|]. exists (get_ok (0 : GF13) (scalar (compute ex6 ch6))). split; [fok|fneq].
Qed.

(* C42 *)
Theorem C42_symmetries :
  forall w : list Z, (length w <= 9)%nat ->
  NoDup (phase_weights_compatible_symmetries w) /\
  forall (p : list Z) (b : bool), In (p, b) (phase_weights_compatible_symmetries w) <->
    is_perm (length w) p /\
    (b = false /\ map (fun k => nth (Z.to_nat (k - 1)) w 0%Z) p = w \/
     b = true /\ map (fun k => nth (Z.to_nat (k - 1)) w 0%Z) p = map Z.opp w /\ map (fun k => nth (Z.to_nat (k - 1)) w 0%Z) p <> w).
Proof. exact symmetries_spec. Qed.
Print Assumptions C42_symmetries.
(* the same for every length, before the permutations are written as strings *)
Theorem C42_any_length :
  forall w : list Z,
  exists L, phase_weights_compatible_symmetries w = map (fun r => (join (fst r), snd r)) L /\ NoDup L /\
    (forall p b, In (p, b) L <-> is_perm (length w) p /\
      (b = false /\ permuted w p = w \/ b = true /\ permuted w p = map Z.opp w /\ permuted w p <> w)).
Proof. exact symmetries_list. Qed.
Print Assumptions C42_any_length.
Example C42_ex : phase_weights_compatible_symmetries [2; -2; 2; -2]%Z =
  [([1;2;3;4],false); ([1;4;3;2],false); ([2;1;4;3],true); ([2;3;4;1],true); ([3;2;1;4],false); ([3;4;1;2],false); ([4;1;2;3],true); ([4;3;2;1],true)]%Z.
Proof. reflexivity. Qed.

(* C43 *)
Theorem C43_inverse :
  forall (n : nat) (p : list Z), (n <= 9)%nat -> is_perm n p ->
  rbind (inverse p) inverse = Ok p /\
  exists q, inverse p = Ok q /\ is_perm n q /\ compose q p = upto n /\ compose p q = upto n.
Proof. exact (fun n p N P => conj (inverse_involution n p N P) (inverse_compose n p N P)). Qed.
Print Assumptions C43_inverse.
Theorem C43_identity : forall n : nat, (n <= 9)%nat -> inverse_rule (identity n) = Ok (identity n).
Proof.
  intros n N. unfold identity, inverse_rule. cbn [fst snd]. rewrite (join_perm n) by (try assumption; apply Permutation_refl).
  destruct (inverse_compose n (upto n) N (Permutation_refl _)) as (q & E & P & C & _). rewrite E. cbn [rmap]. do 2 f_equal. rewrite <- C.
  apply (papp_ext n); [apply is_perm_length; assumption|apply is_perm_length, compose_perm; [assumption|apply Permutation_refl]|].
  intros k. rewrite (papp_compose n) by (try assumption; apply Permutation_refl). rewrite papp_upto. reflexivity.
Qed.
Print Assumptions C43_identity.
Theorem C43_all_symmetries :
  forall n : nat, (n <= 9)%nat -> NoDup (all_symmetries n) /\ forall p b, In (p, b) (all_symmetries n) <-> is_perm n p /\ b = false.
Proof. exact all_symmetries_spec. Qed.
Print Assumptions C43_all_symmetries.
Theorem C43_no_conjugation : forall (n : nat) (p : pstring) (b : bool), In (p, b) (all_symmetries n) -> b = false.
Proof. exact all_symmetries_never_true. Qed.
Print Assumptions C43_no_conjugation.
Example C43_ex : (6 <= 9)%nat /\ is_perm 6 perm6 /\ inverse perm6 = Ok [2; 5; 1; 6; 4; 3]%Z.
Proof. split; [lia|]. split; [apply perm6_ok|reflexivity]. Qed.
(* beyond nine labels the strings are ambiguous *)
Theorem C43_ten_refuted : inverse_rule (identity 10) <> Ok (identity 10).
Proof. vm_compute. discriminate. Qed.
Print Assumptions C43_ten_refuted.
Theorem C43_eleven_refuted : exists n, ~ NoDup (all_symmetries n).
Proof.
  exists 11%nat. apply (all_symmetries_collision 11 [1; 11; 2; 3; 4; 5; 6; 7; 8; 9; 10]%Z [11; 1; 2; 3; 4; 5; 6; 7; 8; 9; 10]%Z).
  1-2: apply NoDup_Permutation_bis; [repeat constructor; cbn; lia|cbn; lia|intros x I; cbn in *; lia].
  - discriminate.
  - reflexivity.
Qed.
Print Assumptions C43_eleven_refuted.
