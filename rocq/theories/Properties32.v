(* C91: the lists derived from the families of invariants. *)
From Coq Require Import List ZArith Bool Lia Permutation.
From Verif Require Import Base Str Gen GenThm3 Cache CacheThm Derived DerivedSpec DerivedThm.
Import ListNotations.
Open Scope Z_scope.

(* C91: full_minus_4_brackets is the full list without its four brackets, in the same order, for any
   number of legs but seven *)
Theorem C91_minus : forall v n o i, n <> 7 -> from_scratch v n o = Ok i -> full_minus_4_brackets i = filter (fun t => negb (four_bracket t)) (full i).
Proof. intros v n o i N E. exact (minus_list v n o i E N). Qed.
Print Assumptions C91_minus.
(* C91: invs_N has the brackets with sums between the ends *)
Theorem C91_N : forall v n o i, n <> 7 -> from_scratch v n o = Ok i -> invs_N i = filter long_bracket (full i).
Proof. intros v n o i N E. exact (N_list v n o i E N). Qed.
Print Assumptions C91_N.
(* for seven legs the Gram determinant Δ_12|347|56 is lost from the one and in the other *)
Theorem C91_seven : forall v o i, from_scratch v 7 o = Ok i ->
  ~ In the_gram (full_minus_4_brackets i) /\
  Permutation (the_gram :: full_minus_4_brackets i) (filter (fun t => negb (four_bracket t)) (full i)) /\
  Permutation (invs_N i) (the_gram :: filter long_bracket (full i)).
Proof. intros v o i E. destruct (lists_seven v 7 o i E eq_refl) as (_ & _ & A & B & C). auto. Qed.
Print Assumptions C91_seven.
Definition env0 : env := Env (fun _ _ l => l) (fun l => l) (fun _ => Ok true).
Definition ok_or (r : result invs) : invs := match r with Ok i => i | Err _ => Invs [] [] [] [] [] [] [] [] [] end.
Lemma ok_or_eq r : (match r with Ok _ => true | Err _ => false end) = true -> r = Ok (ok_or r).
Proof. destruct r; [reflexivity|discriminate]. Qed.
(* sets come in the reverse order *)
Definition reversed : env := with_secret Z.opp (fun l => l) (fun _ => Ok true).
(* C91 does not hold for seven legs *)
Theorem C91_seven_refuted : exists v i t, from_scratch v 7 default_options = Ok i /\ In t (full i) /\ four_bracket t = false /\ long_bracket t = false /\
  ~ In t (full_minus_4_brackets i) /\ In t (invs_N i).
Proof.
  exists reversed. destruct (unsorted_ok reversed 7 default_options) as (i & E); [discriminate|apply opp_unsorted|reflexivity|]. exists i, the_gram.
  split; [exact E|]. destruct (lists_seven _ _ _ _ E eq_refl) as (A & B & C & _). split; [exact A|]. split; [reflexivity|]. split; [reflexivity|]. split; [exact C|exact B].
Qed.
Print Assumptions C91_seven_refuted.
(* six legs: there are four brackets, and other brackets, and strings that are no brackets *)
Example C91_ex : exists i, from_scratch env0 6 default_options = Ok i /\ existsb four_bracket (full i) = true /\ existsb four_bracket (full_minus_4_brackets i) = false /\
  existsb long_bracket (full_minus_4_brackets i) = true /\ (length (invs_N i) < length (full i))%nat.
Proof.
  exists (ok_or (from_scratch env0 6 default_options)). split; [apply ok_or_eq; vm_compute; reflexivity|]. split; [vm_compute; reflexivity|]. split; [vm_compute; reflexivity|]. split; [vm_compute; reflexivity|].
  apply Nat.ltb_lt. vm_compute. reflexivity.
Qed.
