(* C65, C66: the restricted lists of three and four brackets, and the five brackets. *)
From Coq Require Import Ascii String.
From Coq Require Import List ZArith Bool Lia Sorted Permutation.
From Verif Require Import Base Str Gen GenSpec GenThm GenThm2 GenThm3 RestrictSpec RestrictThm Cache CacheSpec CacheThm Properties11 Properties12.
Import ListNotations.
Open Scope Z_scope.

(* the options Restrict3Brackets and Restrict4Brackets of any successful run *)
Theorem C65_three :
  forall v n o i, from_scratch v n o = Ok i -> o_r3 o = true ->
  exists all kept added, gen_N n 3 = Ok all /\ invs_3 i = map render kept ++ added /\ incl added hard_coded /\ (added = [] \/ n = 6) /\
  forall b, In b kept <-> In b all /\ near_three n b.
Proof.
  intros v n o i E R. unfold from_scratch in E. destruct (gen_N n 3) as [all|] eqn:E3; [|discriminate]. cbn [rbind] in E.
  destruct (gen_4 (e_ord v) n) as [four|]; [|discriminate]. cbn [rbind] in E. rewrite R in E. destruct (if o_r4 o then _ else _) as [four'|]; [|discriminate]. cbn [rbind] in E.
  destruct ((n =? 6) && negb (o_no_hard o)) eqn:C.
  - destruct (rmapM _ hard_coded) as [l|] eqn:H; [|discriminate]. cbn [rmap rbind] in E. injection E as <-. exists all, (purge3 n all), (concat l). split; [reflexivity|]. split; [reflexivity|].
    split; [|split; [right; lia|apply purge3_spec, E3]]. clear - H. revert l H. generalize hard_coded. intros h. induction h as [|t h IH]; intros l H; cbn [rmapM] in H.
    + injection H as <-. intros x [].
    + destruct (e_test v t) as [b|]; [|discriminate]. cbn [rmap rbind] in H. destruct (rmapM _ h) as [l'|]; [|discriminate]. cbn [rbind] in H. injection H as <-. cbn [concat]. intros x X. apply in_app_iff in X as [X|X].
      * destruct b; [|destruct X]. destruct X as [<-|[]]. left. reflexivity.
      * right. apply (IH l' eq_refl), X.
  - cbn [rbind] in E. injection E as <-. exists all, (purge3 n all), []. split; [reflexivity|]. split; [reflexivity|]. split; [intros x []|]. split; [auto|apply purge3_spec, E3].
Qed.
Print Assumptions C65_three.
Lemma near3 n i j S T k m : shares_out n i j S T -> 1 <= k <= n -> 0 <= m -> (forall x, In x (i :: j :: S) <-> In x (run n k (Z.to_nat (m + 1)))) -> near_three n (Brk true i [S] j).
Proof.
  intros Sh K M H. exists S, T. split; [reflexivity|]. split; [exact Sh|]. left. apply (consecutive_ext n (run n k (Z.to_nat (m + 1)))); [intros x; symmetry; apply H|]. apply run_consecutive; [exact K|lia].
Qed.
(* ⟨7|(1+2)|3] is kept and ⟨1|(3+5)|2] is not *)
Example C65_three_ex : near_three 7 (Brk true 7 [[1; 2]] 3) /\ ~ near_three 7 (Brk true 1 [[3; 5]] 2) /\
  exists i, from_scratch env0 5 default_options = Ok i /\ o_r3 default_options = true.
Proof.
  split; [|split; [|exists inv5; split; [exact inv5_ok|reflexivity]]].
  - apply (near3 7 7 3 [1; 2] [4; 5; 6] 7 3); try lia.
    + split; [split; repeat constructor; lia|]. split; [split; repeat constructor; lia|]. intros x. cbn [In]. lia.
    + intros x. change (run 7 7 (Z.to_nat (3 + 1))) with [7; 1; 2; 3]. cbn [In]. lia.
  - intros H. assert (P : In (Brk true 1 [[3; 5]] 2) (purge3 7 (match gen_N 7 3 with Ok l => l | Err _ => [] end))).
    { destruct (gen_N 7 3) as [l|] eqn:E; [|exfalso; destruct (three_once 7) as (l & E' & _); congruence]. apply purge3_spec; [exact E|]. split; [|exact H].
      apply memb_In. assert (Q : match gen_N 7 3 with Ok l => memb (Brk true 1 [[3; 5]] 2) l | Err _ => false end = true) by (vm_compute; reflexivity). rewrite E in Q. exact Q. }
    apply memb_In in P. revert P. apply not_true_iff_false. vm_compute. reflexivity.
Qed.

Theorem C65_four :
  forall v n o i, n <= 9 -> from_scratch v n o = Ok i -> o_r4 o = true -> o_f4 o = true ->
  exists all kept added, gen_4 (e_ord v) n = Ok all /\ invs_4 i = map render kept ++ added /\ (length added <= 3)%nat /\ (added = [] \/ n = 7) /\
  forall b, In b kept <-> In b all /\ near_four n b.
Proof.
  intros v n o i N E R F. unfold from_scratch in E. destruct (gen_N n 3) as [three|]; [|discriminate]. cbn [rbind] in E.
  destruct (gen_4 (e_ord v) n) as [all|] eqn:E4; [|discriminate]. cbn [rbind] in E. rewrite R, F in E.
  destruct (purge4 n true all) as [four'|] eqn:P; [|discriminate]. cbn [rbind] in E. destruct (if _ && _ then _ else _) as [added|]; [|discriminate]. cbn [rbind] in E. injection E as <-.
  eexists all, four', _. split; [reflexivity|]. split; [reflexivity|]. split; [destruct (n =? 7); cbn; lia|]. split; [destruct (Z.eqb_spec n 7); auto|].
  apply (purge4_spec n all four' N); [|exact P]. intros b Hb. exact (gen_4_good _ _ _ _ E4 Hb).
Qed.
Print Assumptions C65_four.
Lemma near4 n a d w x y z k k' : 1 <= k <= n -> 1 <= k' <= n -> (forall u, In u [a; w; x] <-> In u (run n k 3)) -> (forall u, In u [d; y; z] <-> In u (run n k' 3)) -> near_four n (Brk true a [[w; x]; [y; z]] d).
Proof.
  intros K K' H H'. exists w, x, y, z. split; [reflexivity|]. split.
  - apply (consecutive_ext n (run n k 3)); [intros u; symmetry; apply H|apply run_consecutive; [exact K|lia]].
  - apply (consecutive_ext n (run n k' 3)); [intros u; symmetry; apply H'|apply run_consecutive; [exact K'|lia]].
Qed.
(* ⟨1|(2+6)|(4+5)|3⟩ for six legs *)
Example C65_four_ex : near_four 6 (Brk true 1 [[2; 6]; [4; 5]] 3) /\ from_scratch env0 6 default_options = Ok inv6 /\ o_r4 default_options = true /\ o_f4 default_options = true.
Proof. split; [|split; [exact inv6_ok|split; reflexivity]]. apply (near4 6 1 3 2 6 4 5 6 3); try lia; [change (run 6 6 3) with [6; 1; 2]|change (run 6 3 3) with [3; 4; 5]]; intros u; cbn [In]; lia. Qed.
(* false from ten legs on: the length of a part is counted in characters *)
Theorem C65_ten_refuted : exists n b, In b (drop_products n (raw4 n)) /\ near_four n b /\ b_i b <> b_j b /\
  forall l l', purge4 n true l = Ok l' -> ~ In b l'.
Proof.
  exists 10, (Brk true 4 [[2; 3]; [9; 10]] 8). split; [|split; [|split; [discriminate|]]].
  - apply filter_In. split; [|vm_compute; reflexivity]. apply in_flat_map. exists 4. split; [apply zrange_In; lia|]. apply in_flat_map. exists 8. split; [apply zrange_In; lia|].
    apply memb_In. vm_compute. reflexivity.
  - apply (near4 10 4 8 2 3 9 10 2 8); try lia; [change (run 10 2 3) with [2; 3; 4]|change (run 10 8 3) with [8; 9; 10]]; intros u; cbn [In]; lia.
  - intros l l' E H. unfold purge4 in E. injection E as <-. apply filter_In in H as [_ H]. revert H. apply not_true_iff_false. vm_compute. reflexivity.
Qed.
Print Assumptions C65_ten_refuted.

(* the five brackets are all ways to cut the legs other than i, in cyclic order, into three parts
   of two legs or more, each starting at any of the three parts *)
Theorem C66_five :
  forall v n o i, keeps_legs (e_iset v) -> from_scratch v n o = Ok i ->
  exists l, invs_5 i = map render l /\ NoDup l /\
  forall b, In b l <-> exists k A B C, 1 <= k <= n /\ three_runs n k A B C /\
    (b = Brk true k [A; B; e_iset v C] k \/ b = Brk true k [B; C; e_iset v A] k \/ b = Brk true k [C; A; e_iset v B] k).
Proof.
  intros v n o i K E. unfold from_scratch in E. destruct (gen_N n 3) as [three|]; [|discriminate]. cbn [rbind] in E. destruct (gen_4 (e_ord v) n) as [four|]; [|discriminate]. cbn [rbind] in E.
  destruct (if o_r4 o then _ else _) as [four'|]; [|discriminate]. cbn [rbind] in E. destruct (if _ && _ then _ else _) as [added|]; [|discriminate]. cbn [rbind] in E. injection E as <-.
  exists (gen_5 (e_iset v) n). split; [reflexivity|]. split; [apply gen_5_NoDup|]. intros b. apply gen_5_spec, K.
Qed.
Print Assumptions C66_five.
(* ⟨6|(7+1)|(2+3)|(4+5)|6], ⟨6|(2+3)|(4+5)|(7+1)|6] and ⟨6|(4+5)|(7+1)|(2+3)|6] *)
Example C66_five_ex : three_runs 7 6 [7; 1] [2; 3] [4; 5] /\ keeps_legs (e_iset (secret (fun x => x))) /\ exists i, from_scratch (secret (fun x => x)) 7 default_options = Ok i /\ length (invs_5 i) = 21%nat.
Proof.
  split; [exists 2%nat, 2%nat, 2%nat; repeat split; lia|]. split; [intros l; apply Permutation_refl|]. destruct sevens as (i & _ & E & _). exists i. split; [rewrite seven_eq; exact E|].
  assert (Q : match seven (fun x => x) with Ok i => length (invs_5 i) | Err _ => 0%nat end = 21%nat) by (vm_compute; reflexivity). rewrite E in Q. exact Q.
Qed.
