(* C45: the generated list of invariants is complete and free of repetitions.  All theorems
   are about any successful run of GenerateFromScratch, with any options, any order of sets
   and any outcome of the numerical tests; [full] is the whole list. *)
From Coq Require Import Ascii String.
From Coq Require Import List ZArith Bool Lia Sorted.
From Verif Require Import Base Str Gen GenSpec GenThm GenThm2 GenFull.
Import ListNotations.
Open Scope Z_scope.

(* sets listed in ascending order, every numerical test says "add" *)
Definition env0 : env := Env (fun _ _ l => l) (fun l => l) (fun _ => Ok true).
Definition ok_or (r : result invs) : invs := match r with Ok i => i | Err _ => Invs [] [] [] [] [] [] [] [] [] end.
Lemma ok_or_eq r : match r with Ok _ => true | Err _ => false end = true -> r = Ok (ok_or r).
Proof. destruct r; [reflexivity|discriminate]. Qed.
Definition inv5 : invs := ok_or (from_scratch env0 5 default_options).
Definition inv6 : invs := ok_or (from_scratch env0 6 default_options).
Lemma inv5_ok : from_scratch env0 5 default_options = Ok inv5. Proof. apply ok_or_eq. vm_compute. reflexivity. Qed.
Lemma inv6_ok : from_scratch env0 6 default_options = Ok inv6. Proof. apply ok_or_eq. vm_compute. reflexivity. Qed.

(* two-particle brackets: each exactly once, square ones not for four legs *)
Theorem C45_two :
  forall (v : env) (n : Z) (o : options) (inv : invs) (i j : Z),
  n <= 9 -> from_scratch v n o = Ok inv -> 1 <= i < j -> j <= n ->
  occurrences (angle_name i j) (full inv) = 1%nat /\ occurrences (square_name i j) (full inv) = (if n =? 4 then 0%nat else 1%nat).
Proof.
  intros v n o inv i j N E H1 H2. destruct (kind_two i j ltac:(lia) ltac:(lia)) as [A B].
  rewrite (full_two v n o inv N E _ (or_introl A)), (full_two v n o inv N E _ (or_intror B)). split; [apply gen_2_angle|apply gen_2_square]; assumption.
Qed.
Print Assumptions C45_two.
Example C45_two_ex : from_scratch env0 6 default_options = Ok inv6 /\ angle_name 2 5 = 10216 :: lit "2|5" ++ [10217] /\
  occurrences (angle_name 2 5) (full inv6) = 1%nat /\ occurrences (angle_name 5 2) (full inv6) = 0%nat /\ length (full inv6) = 227%nat.
Proof. split; [exact inv6_ok|]. vm_compute. repeat split. Qed.
(* and nothing else among them *)
Theorem C45_two_only :
  forall (v : env) (n : Z) (o : options) (inv : invs) (t : pystr),
  from_scratch v n o = Ok inv -> In t (invs_2 inv) -> exists i j, 1 <= i < j /\ j <= n /\ (t = angle_name i j \/ t = square_name i j).
Proof. intros v n o inv t E H. destruct (from_scratch_fields v n o inv E) as (E2 & _). rewrite E2 in H. exact (gen_2_only n t H). Qed.
Print Assumptions C45_two_only.
Example C45_two_only_ex : In (square_name 4 5) (invs_2 inv5). Proof. vm_compute. auto 25. Qed.

(* s with three legs or more: exactly once up to the complement *)
Theorem C45_s :
  forall (v : env) (n : Z) (o : options) (inv : invs) (I J : list Z),
  n <= 9 -> from_scratch v n o = Ok inv -> legset n I -> other_legs n I J -> 3 <= Z.of_nat (length I) <= n / 2 ->
  (occurrences (s_name I) (full inv) + occurrences (s_name J) (full inv) = 1)%nat.
Proof.
  intros v n o inv I J N E A B C. rewrite (full_s v n o inv N E (s_name I) eq_refl), (full_s v n o inv N E (s_name J) eq_refl). exact (gen_s_once n I J N A B C).
Qed.
Print Assumptions C45_s.
Lemma legset6 a b c : 1 <= a < b -> b < c <= 6 -> legset 6 [a; b; c].
Proof. intros H1 H2. split; repeat constructor; lia. Qed.
Example C45_s_ex : legset 6 [1; 3; 6] /\ other_legs 6 [1; 3; 6] [2; 4; 5] /\
  occurrences (s_name [1; 3; 6]) (full inv6) = 0%nat /\ occurrences (s_name [2; 4; 5]) (full inv6) = 1%nat.
Proof.
  split; [apply legset6; lia|]. split; [split; [apply legset6; lia|]|split; vm_compute; reflexivity]. intros x H. cbn [In].
  assert (x = 1 \/ x = 2 \/ x = 3 \/ x = 4 \/ x = 5 \/ x = 6) by lia. intuition lia.
Qed.
Theorem C45_s_only :
  forall (v : env) (n : Z) (o : options) (inv : invs) (t : pystr),
  n <= 9 -> from_scratch v n o = Ok inv -> In t (invs_s inv) -> exists I, legset n I /\ 3 <= Z.of_nat (length I) <= n / 2 /\ t = s_name I.
Proof. intros v n o inv t N E H. destruct (from_scratch_fields v n o inv E) as (_ & Es & _). rewrite Es in H. exact (gen_s_only n t N H). Qed.
Print Assumptions C45_s_only.
Example C45_s_only_ex : In (lit "s_245") (invs_s inv6) /\ length (invs_s inv6) = 10%nat.
Proof. split; [vm_compute; auto 25|vm_compute; reflexivity]. Qed.

(* tr5 of four legs, the last one not among them *)
Theorem C45_tr5 :
  forall (v : env) (n : Z) (o : options) (inv : invs) (I : list Z),
  5 <= n <= 9 -> from_scratch v n o = Ok inv -> legset (n - 1) I -> length I = 4%nat -> occurrences (tr5_name I) (full inv) = 1%nat.
Proof.
  intros v n o inv I N E A B. rewrite (full_tr5 v n o inv ltac:(lia) E (tr5_name I) eq_refl). apply gen_tr5_once; [lia|exact A|exact B].
Qed.
Print Assumptions C45_tr5.
Example C45_tr5_ex : legset (6 - 1) [1; 2; 4; 5] /\ tr5_name [1; 2; 4; 5] = lit "tr5_1245" /\ occurrences (lit "tr5_1245") (full inv6) = 1%nat /\ occurrences (lit "tr5_2346") (full inv6) = 0%nat.
Proof. split; [split; repeat constructor; lia|]. vm_compute. auto. Qed.
Theorem C45_tr5_only :
  forall (v : env) (n : Z) (o : options) (inv : invs) (t : pystr),
  n <= 9 -> from_scratch v n o = Ok inv -> In t (invs_tr5 inv) -> 5 <= n /\ exists I, legset (n - 1) I /\ length I = 4%nat /\ t = tr5_name I.
Proof.
  intros v n o inv t N E H. destruct (from_scratch_fields v n o inv E) as (_ & _ & _ & _ & E5 & _). rewrite E5 in H.
  destruct (Z_lt_le_dec n 5) as [L|L]; [rewrite gen_tr5_small in H by exact L; destruct H|]. split; [exact L|]. apply gen_tr5_only; [lia|exact H].
Qed.
Print Assumptions C45_tr5_only.
Example C45_tr5_only_ex : In (lit "tr5_1234") (invs_tr5 inv5). Proof. vm_compute. auto. Qed.

(* three-mass Gram determinants of adjacent corners with two legs or more: exactly once, under
   one of the three names that start at another corner *)
Theorem C45_delta :
  forall (v : env) (n : Z) (o : options) (inv : invs) (a b c : Z),
  n <= 9 -> from_scratch v n o = Ok inv -> three_corners n a b c ->
  (occurrences (delta_name a b c) (full inv) + occurrences (delta_name b c a) (full inv) + occurrences (delta_name c a b) (full inv) = 1)%nat.
Proof.
  intros v n o inv a b c N E T. assert (H := gen_D_once n a b c N T). unfold three_corners in T.
  rewrite !(full_D v n o inv N E) by (apply kind_delta; lia). exact H.
Qed.
Print Assumptions C45_delta.
Example C45_delta_ex : three_corners 6 2 4 6 /\ occurrences (delta_name 2 4 6) (full inv6) = 0%nat /\ occurrences (delta_name 6 2 4) (full inv6) = 1%nat.
Proof. split; [unfold three_corners; lia|]. vm_compute. auto. Qed.
(* what else is in that family: for six legs three determinants of corners that are not adjacent *)
Theorem C45_delta_only :
  forall (v : env) (n : Z) (o : options) (inv : invs) (t : pystr),
  from_scratch v n o = Ok inv -> In t (invs_D inv) ->
  (exists a b c, three_corners n a b c /\ (t = delta_name a b c \/ t = delta_name c a b)) \/
  (n = 6 /\ (t = 916 :: lit "_15|26|34" \/ t = 916 :: lit "_14|23|56" \/ t = 916 :: lit "_13|24|56")).
Proof.
  intros v n o inv t E H. destruct (from_scratch_fields v n o inv E) as (_ & _ & _ & _ & _ & ED & _). rewrite ED in H. apply in_app_or in H as [H|H].
  - left. exact (gen_D_only n t H).
  - right. destruct (Z.eqb_spec n 6) as [->|_]; [|destruct H]. split; [reflexivity|]. destruct H as [<-|[<-|[<-|[]]]]; [left|right; left|right; right]; reflexivity.
Qed.
Print Assumptions C45_delta_only.
Example C45_delta_only_ex : In (916 :: lit "_14|23|56") (invs_D inv6) /\ In (916 :: lit "_135") (invs_D inv6) /\ length (invs_D inv6) = 5%nat.
Proof. split; [vm_compute; auto 9|]. split; [vm_compute; auto 9|vm_compute; reflexivity]. Qed.

(* three-particle brackets before the restriction, for any number of legs: no repetition, and
   of ⟨i|S|j] and the form with the other legs exactly one is there (both with two legs or more) *)
Theorem C45_three :
  forall n, exists l, gen_N n 3 = Ok l /\ NoDup l /\
  (forall b, In b l -> exists i S j T, b = Brk true i [S] j /\ 1 <= i <= n /\ 1 <= j <= n /\ shares_out n i j S T /\ 2 <= Z.of_nat (length S) <= n / 2) /\
  (forall i j S T, 1 <= i <= n -> 1 <= j <= n -> shares_out n i j S T -> (2 <= length S)%nat -> (2 <= length T)%nat ->
     (In (Brk true i [S] j) l /\ ~ In (Brk true i [T] j) l) \/ (~ In (Brk true i [S] j) l /\ In (Brk true i [T] j) l)).
Proof. exact three_once. Qed.
Print Assumptions C45_three.
Example C45_three_ex : shares_out 7 1 4 [2; 3; 6] [5; 7].
Proof.
  split; [split; repeat constructor; lia|]. split; [split; repeat constructor; lia|]. intros x. cbn [In]. split; [lia|]. split; [lia|]. intros. lia.
Qed.
