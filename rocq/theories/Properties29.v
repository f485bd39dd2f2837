(* C87: the three momenta of a Gram determinant and their masses. *)
From Coq Require Import List ZArith Bool Lia Permutation.
From Verif Require Import Base Fld FldInst Particle ParticleSpec Index Phase PhaseSpec Arcs ArcsSpec ArcsThm Compute ComputeSpec ComputeThm Cluster ThreeKs ThreeKsSpec ThreeKsThm Properties03 Properties04.
Import ListNotations.
Open Scope fld_scope.

(* C87: for different legs there are three momenta, the sums over the arcs, and nothing is lost *)
Theorem C87_momenta :
  forall (K : Fld) cv (s t : ps K) (i j k : Z) (A B C : list Z), sound s -> three_arcs (length s) i j k A B C ->
  (exists t', ijk_to_3Ks Symmetric s [i; j; k] = Ok t') /\
  (ijk_to_3Ks cv s [i; j; k] = Ok t -> exists p q r, t = [p; q; r] /\
    mom_sum false s A = Ok (r2 p) /\ mom_sum false s B = Ok (r2 q) /\ mom_sum false s C = Ok (r2 r) /\
    scalar (compute s (IS A)) = Ok (lsq p) /\ scalar (compute s (IS B)) = Ok (lsq q) /\ scalar (compute s (IS C)) = Ok (lsq r) /\
    m2s t = [lsq p; lsq q; lsq r] /\ total_mom t = total_mom s /\ sound t).
Proof. exact (fun K cv s t i j k A B C => three_ks_momenta cv s t i j k A B C). Qed.
Print Assumptions C87_momenta.
(* C87: with momentum conservation the Gram determinant is a quarter of the Kallen function of the squared masses *)
Theorem C87_kallen :
  forall (K : Fld) cv (s t : ps K) (i j k : Z) (A B C : list Z), sound s -> total_mom s = mzero -> three_arcs (length s) i j k A B C ->
  ijk_to_3Ks cv s [i; j; k] = Ok t ->
  exists x y z D, m2s t = [x; y; z] /\ scalar (compute s (IDelta3 [i; j; k])) = Ok D /\ (2 * 2) * D = kallen x y z.
Proof. exact (fun K cv s t i j k A B C => three_ks_gram cv s t i j k A B C). Qed.
Print Assumptions C87_kallen.
(* C87: masses square to the squared masses *)
Theorem C87_masses : forall (K : Fld) (s : ps K) (l : list K), ms s = Ok l -> map (fun y => y * y) l = m2s s.
Proof. exact (fun K s l => ms_sq s l). Qed.
Print Assumptions C87_masses.
(* C87: the Gram determinant vanishes exactly at the thresholds *)
Theorem C87_thresholds :
  forall (K : Fld) cv (s t : ps K) (i j k : Z) (A B C : list Z) (a b c : K), sound s -> total_mom s = mzero -> three_arcs (length s) i j k A B C ->
  ijk_to_3Ks cv s [i; j; k] = Ok t -> ms t = Ok [a; b; c] ->
  exists D, scalar (compute s (IDelta3 [i; j; k])) = Ok D /\ (2 * 2) * D = fold_right fmul 1 (thresholds a b c) /\
    (D = 0 <-> In 0 (thresholds a b c)).
Proof. exact (fun K cv s t i j k A B C a b c => three_ks_zero cv s t i j k A B C a b c). Qed.
Print Assumptions C87_thresholds.

Lemma ex6_arcs236 : three_arcs (length ex6) 2 3 6 [2]%Z [3; 4; 5]%Z [6; 1]%Z.
Proof. apply (arcs_iff 6 2 3 6 7); try (cbn; lia). reflexivity. Qed.
Definition got (t : result (ps GF13)) : ps GF13 := match t with Ok t => t | Err _ => [] end.
Definition is_masses (x : result (list GF13)) (l : list Z) : bool :=
  match x, l with Ok [u; v; w], [a; b; c] => feqb u (g13 a) && feqb v (g13 b) && feqb w (g13 c) | _, _ => false end.
Lemma is_masses_ok x a b c : is_masses x [a; b; c] = true -> x = Ok [g13 a; g13 b; g13 c].
Proof.
  unfold is_masses. destruct x as [[|u [|v [|w [|]]]]|]; try discriminate.
  rewrite !andb_true_iff. intros ((Ha & Hb) & Hc). apply (feqb_ok GF13) in Ha, Hb, Hc. subst. reflexivity.
Qed.
Lemma ok_inj (x y : list GF13) : Ok x = Ok y -> x = y. Proof. congruence. Qed.
(* the Gram determinant of the legs 1, 3, 5 and of the legs 2, 3, 6, where all masses are in the field *)
Example C87_ex : sound ex6 /\ total_mom ex6 = mzero /\ three_arcs (length ex6) 1 3 5 [1; 2]%Z [3; 4]%Z [5; 6]%Z /\
  m2s (got (ijk_to_3Ks Symmetric ex6 [1; 3; 5]%Z)) = [g13 7; g13 6; g13 4] /\ kallen (g13 7) (g13 6) (g13 4) <> 0 /\
  three_arcs (length ex6) 2 3 6 [2]%Z [3; 4; 5]%Z [6; 1]%Z /\
  ms (got (ijk_to_3Ks Symmetric ex6 [2; 3; 6]%Z)) = Ok [g13 0; g13 5; g13 1] /\ ~ In 0 (thresholds (g13 0) (g13 5) (g13 1)).
Proof.
  split; [apply ex6_sound|]. split; [apply ex6_total|]. split; [apply ex6_arcs|]. split.
  { assert (H : is_masses (Ok (m2s (got (ijk_to_3Ks Symmetric ex6 [1; 3; 5]%Z)))) [7; 6; 4]%Z = true) by (vm_compute; reflexivity).
    exact (ok_inj _ _ (is_masses_ok _ _ _ _ H)). }
  split; [fneq|]. split; [apply ex6_arcs236|]. split; [apply is_masses_ok; vm_compute; reflexivity|].
  intros I. assert (H : existsb (fun x => feqb x 0) (thresholds (g13 0) (g13 5) (g13 1)) = true) by (apply existsb_exists; exists (0 : GF13); split; [exact I|apply (feqb_ok GF13); reflexivity]).
  vm_compute in H. discriminate.
Qed.
