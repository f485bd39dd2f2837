(* Proofs about sharing: an operation changes only what is reachable from its arguments. *)
From Coq Require Import List ZArith Bool Lia.
From Verif Require Import Base Fld Particle Index Phase Compute Cluster Symm Str Heap HeapSpec.
Import ListNotations.
Open Scope nat_scope.

Lemma put_length {A} (xs : list A) : forall k x, length (put xs k x) = length xs.
Proof. induction xs as [|y t IH]; intros [|k] x; cbn; auto. Qed.
Lemma put_same {A} (xs : list A) : forall k x, k < length xs -> nth_error (put xs k x) k = Some x.
Proof. induction xs as [|y t IH]; intros [|k] x L; cbn in *; try lia; [reflexivity|]. apply IH. lia. Qed.
Lemma put_other {A} (xs : list A) : forall k x j, j <> k -> nth_error (put xs k x) j = nth_error xs j.
Proof. induction xs as [|y t IH]; intros [|k] x [|j] N; cbn; try reflexivity; try congruence. apply IH. congruence. Qed.

Ltac mem := solve [ assumption | repeat rewrite in_app_iff in *; cbn [In] in *; tauto | intros ? ?; repeat rewrite in_app_iff in *; cbn [In] in *; tauto | intros ? ?; repeat rewrite in_app_iff in *; cbn [In] in *; intuition (subst; auto) ].

Section Frame.
Context {K : Fld}.
Variable h0 : heap K.
Variable X0 : loc -> Prop.
Definition own (l : loc) : Prop := X0 l \/ length h0 <= l.
Definition good (h : heap K) (l : loc) : Prop := own l /\ l < length h.
Definition Inv (h : heap K) : Prop :=
  length h0 <= length h /\ (forall l, l < length h0 -> ~ X0 l -> nth_error h l = nth_error h0 l) /\
  (forall l o l', own l -> nth_error h l = Some o -> In l' (refs o) -> good h l').
(* c, with access to G, keeps the invariant, and its result gives access to Q *)
Definition ok (G : list loc) {A} (c : H (K := K) A) (Q : A -> list loc) : Prop :=
  forall h, Inv h -> Forall (good h) G ->
  Inv (fst (c h)) /\ length h <= length (fst (c h)) /\ forall a, snd (c h) = Ok a -> Forall (good (fst (c h))) (Q a).

Lemma good_mono h h' l : length h <= length h' -> good h l -> good h' l.
Proof. intros L [O B]. split; [exact O|lia]. Qed.
Lemma goods_mono h h' G : length h <= length h' -> Forall (good h) G -> Forall (good h') G.
Proof. intros L. apply Forall_impl. intros l. apply good_mono, L. Qed.
Lemma good_incl h G G' : incl G' G -> Forall (good h) G -> Forall (good h) G'.
Proof. intros I F. apply Forall_forall. intros l Il. exact (proj1 (Forall_forall _ _) F l (I l Il)). Qed.
Lemma good_in h G l : In l G -> Forall (good h) G -> good h l.
Proof. intros I F. exact (proj1 (Forall_forall _ _) F l I). Qed.

Lemma ok_ret G {A} (a : A) Q : incl (Q a) G -> ok G (ret a) Q.
Proof. intros I h V F. cbn. split; [exact V|]. split; [lia|]. intros b E. injection E as <-. exact (good_incl _ _ _ I F). Qed.
Lemma ok_raise G {A} e (Q : A -> list loc) : ok G (raise e) Q.
Proof. intros h V F. cbn. split; [exact V|]. split; [lia|]. discriminate. Qed.
Lemma ok_lift G {A} (r : result A) Q : (forall a, r = Ok a -> incl (Q a) G) -> ok G (lift r) Q.
Proof. intros I h V F. cbn. split; [exact V|]. split; [lia|]. intros b E. exact (good_incl _ _ _ (I b E) F). Qed.
Lemma ok_bind G {A B} (c : H (K := K) A) (f : A -> H (K := K) B) Q Q' : ok G c Q -> (forall a, ok (Q a ++ G) (f a) Q') -> ok G (bind c f) Q'.
Proof.
  intros C D h V F. unfold bind. destruct (C h V F) as (V1 & L1 & R1). destruct (c h) as [h1 [a|e]]; cbn [fst snd] in *.
  - destruct (D a h1 V1) as (V2 & L2 & R2); [apply Forall_app; split; [apply R1; reflexivity|exact (goods_mono _ _ _ L1 F)]|]. split; [exact V2|]. split; [lia|exact R2].
  - split; [exact V1|]. split; [lia|]. discriminate.
Qed.
Lemma ok_weaken G G' {A} (c : H (K := K) A) Q Q' : ok G c Q -> incl G G' -> (forall a, incl (Q' a) (Q a ++ G')) -> ok G' c Q'.
Proof.
  intros C I J h V F. destruct (C h V (good_incl _ _ _ I F)) as (V1 & L1 & R1). split; [exact V1|]. split; [exact L1|]. intros a E.
  apply (good_incl _ _ _ (J a)). apply Forall_app. split; [exact (R1 a E)|exact (goods_mono _ _ _ L1 F)].
Qed.
Lemma ok_try G {A} (c : H (K := K) A) p d Q : ok G c Q -> ok G d Q -> ok G (try_except c p d) Q.
Proof.
  intros C D h V F. unfold try_except. destruct (C h V F) as (V1 & L1 & R1). destruct (c h) as [h1 [a|e]]; cbn [fst snd] in *; [split; [exact V1|split; [exact L1|exact R1]]|].
  destruct (p e); [|split; [exact V1|split; [exact L1|discriminate]]]. destruct (D h1 V1 (goods_mono _ _ _ L1 F)) as (V2 & L2 & R2). split; [exact V2|]. split; [lia|exact R2].
Qed.
Lemma ok_mapH G {A B} (f : A -> H (K := K) B) Q xs : (forall x, In x xs -> ok G (f x) Q) -> ok G (mapH f xs) (fun ys => flat_map Q ys).
Proof.
  induction xs as [|x t IH]; intros C; cbn [mapH]; [apply ok_ret; intros ? []|]. eapply ok_bind; [apply C; left; reflexivity|]. intros y. eapply ok_bind.
  - eapply ok_weaken; [apply IH; intros z I; apply C; right; exact I|intros ? ?; apply in_app_iff; auto|intros ys l I; apply in_app_iff; left; exact I].
  - intros ys. apply ok_ret. intros l I. cbn [flat_map] in I. repeat rewrite in_app_iff in *. tauto.
Qed.
Lemma ok_eachH G {A} (f : A -> H (K := K) unit) xs : (forall x, In x xs -> ok G (f x) (fun _ => [])) -> ok G (eachH f xs) (fun _ => []).
Proof.
  induction xs as [|x t IH]; intros C; cbn [eachH]; [apply ok_ret; intros ? []|]. eapply ok_bind; [apply C; left; reflexivity|]. intros y. apply IH. intros z I. apply C. right. exact I.
Qed.

(* ---- access ---- *)
Lemma ok_load_any G l : ok G (load l) (fun _ => []).
Proof. intros h V F. cbn. split; [exact V|]. split; [lia|]. constructor. Qed.
Lemma ok_load G l : In l G -> ok G (load l) refs.
Proof.
  intros I h V F. cbn. split; [exact V|]. split; [lia|]. intros o E. destruct (nth_error h l) as [o'|] eqn:N; [|discriminate E]. assert (o' = o) by congruence. subst o'.
  apply Forall_forall. intros l' I'. apply (proj2 (proj2 V) l o l'); auto. apply (good_in h G l I F).
Qed.
Lemma ok_alloc G o : incl (refs o) G -> ok G (alloc o) (fun l => [l]).
Proof.
  intros I h V F. cbn. rewrite app_length. cbn [length]. destruct V as (L & Fr & Cl). split; [|split; [lia|]].
  - split; [rewrite app_length; lia|]. split.
    + intros l Ll NX. rewrite nth_error_app1 by lia. auto.
    + intros l o' l' O E I'. destruct (Nat.lt_ge_cases l (length h)).
      * rewrite nth_error_app1 in E by lia. apply (good_mono h); [rewrite app_length; lia|eauto].
      * rewrite nth_error_app2 in E by lia. destruct (l - length h) as [|k]; [|destruct k; discriminate E]. injection E as <-. apply (good_mono h); [rewrite app_length; lia|]. exact (good_in _ _ _ (I l' I') F).
  - intros l E. injection E as <-. constructor; [|constructor]. split; [right; exact L|rewrite app_length; cbn; lia].
Qed.
Lemma ok_store G l o : In l G -> incl (refs o) G -> ok G (store l o) (fun _ => []).
Proof.
  intros I J h V F. cbn. rewrite put_length. destruct V as (L & Fr & Cl). destruct (good_in _ _ _ I F) as [O B]. split; [|split; [lia|constructor]].
  split; [rewrite put_length; lia|]. split.
  - intros k Lk NX. rewrite put_other; [auto|]. intros ->. destruct O as [O|O]; [exact (NX O)|lia].
  - intros k o' l' Ok' E I'. apply (good_mono h); [rewrite put_length; lia|]. destruct (Nat.eq_dec k l) as [->|N].
    + rewrite put_same in E by exact B. injection E as <-. exact (good_in _ _ _ (J l' I') F).
    + rewrite put_other in E by exact N. eauto.
Qed.
Ltac oload := eapply ok_bind; [first [apply ok_load; mem|apply ok_load_any]|]; intros o; destruct o; try apply ok_raise; apply ok_ret; cbn [refs]; mem.
Lemma ok_load_buf G l : ok G (load_buf l) (fun _ => []). Proof. unfold load_buf. eapply ok_bind; [apply ok_load_any|]. intros []; try apply ok_raise. apply ok_ret. intros ? []. Qed.
Lemma ok_load_set G l : ok G (load_set l) (fun _ => []). Proof. unfold load_set. eapply ok_bind; [apply ok_load_any|]. intros []; try apply ok_raise. apply ok_ret. intros ? []. Qed.
Lemma ok_load_arr_any G l : ok G (load_arr l) (fun _ => []). Proof. unfold load_arr. eapply ok_bind; [apply ok_load_any|]. intros []; try apply ok_raise. apply ok_ret. intros ? []. Qed.
Lemma ok_load_part_any G l : ok G (load_part l) (fun _ => []). Proof. unfold load_part. eapply ok_bind; [apply ok_load_any|]. intros []; try apply ok_raise. apply ok_ret. intros ? []. Qed.
Lemma ok_load_point_any G l : ok G (load_point l) (fun _ => []). Proof. unfold load_point. eapply ok_bind; [apply ok_load_any|]. intros []; try apply ok_raise. apply ok_ret. intros ? []. Qed.
Lemma ok_load_arr G l : In l G -> ok G (load_arr l) (fun a => [base a]).
Proof. intros I. unfold load_arr. eapply ok_bind; [apply ok_load, I|]. intros []; try apply ok_raise. apply ok_ret. cbn. mem. Qed.
Lemma ok_load_part G l : In l G -> ok G (load_part l) (fun p => refs (K := K) (PartO p)).
Proof. intros I. unfold load_part. eapply ok_bind; [apply ok_load, I|]. intros []; try apply ok_raise. apply ok_ret. intros x Ix. apply in_app_iff. left. exact Ix. Qed.
Lemma ok_load_point G l : In l G -> ok G (load_point l) (fun s => refs (PointO s)).
Proof. intros I. unfold load_point. eapply ok_bind; [apply ok_load, I|]. intros []; try apply ok_raise. apply ok_ret. intros x Ix. apply in_app_iff. left. exact Ix. Qed.
Lemma part_refs p a l : at_ p a = Some l -> In l (refs (K := K) (PartO p)).
Proof. intros E. apply in_flat_map. exists a. split; [destruct a; cbn; tauto|]. rewrite E. left. reflexivity. Qed.
Lemma set_at_refs p a v sp G : incl (refs (K := K) (PartO p)) G -> incl (opt_list v) G -> incl (refs (K := K) (PartO (mkHP (at_ (set_at a v p)) sp))) G.
Proof.
  intros I J l. cbn [refs at_]. intros Il. apply in_flat_map in Il. destruct Il as (b & Ib & E). unfold set_at in E. cbn [at_] in E. destruct (attr_eqb b a); [apply J, E|]. apply I. apply in_flat_map. eauto.
Qed.
Lemma set_at_refs' p a v G : incl (refs (K := K) (PartO p)) G -> incl (opt_list v) G -> incl (refs (K := K) (PartO (set_at a v p))) G.
Proof. apply (set_at_refs p a v (hspin p)). Qed.

(* ---- numpy ---- *)
Lemma ok_read G l : ok G (read l) (fun _ => []).
Proof. unfold read. eapply ok_bind; [apply ok_load_arr_any|]. intros a. eapply ok_bind; [apply ok_load_buf|]. intros xs. apply ok_lift. intros ? _ ? []. Qed.
Lemma ok_new_arr G sh xs : ok G (new_arr sh xs) (fun l => [l]).
Proof. unfold new_arr. eapply ok_bind; [apply ok_alloc; intros ? []|]. intros b. apply ok_alloc. cbn [refs base]. mem. Qed.
Lemma ok_transpose G l : In l G -> ok G (transpose l) (fun l => [l]).
Proof. intros I. unfold transpose. eapply ok_bind; [apply ok_load_arr, I|]. intros a. destruct (shape a) as [|m [|n [|? ?]]]; apply ok_alloc; cbn [refs base]; mem. Qed.
Lemma ok_column G l i : In l G -> ok G (column l i) (fun l => [l]).
Proof. intros I. unfold column. eapply ok_bind; [apply ok_load_arr, I|]. intros a. apply ok_alloc. cbn [refs base]. mem. Qed.
Lemma ok_row G l i : In l G -> ok G (row l i) (fun l => [l]).
Proof. intros I. unfold row. eapply ok_bind; [apply ok_load_arr, I|]. intros a. apply ok_alloc. cbn [refs base]. mem. Qed.
Lemma ok_set_shape G l sh : In l G -> ok G (set_shape l sh) (fun _ => []).
Proof. intros I. unfold set_shape. eapply ok_bind; [apply ok_load_arr, I|]. intros a. destruct (Nat.eqb _ _); [|apply ok_raise]. apply ok_store; cbn [refs base]; mem. Qed.
Lemma ok_write G l k x : In l G -> ok G (write l k x) (fun _ => []).
Proof. intros I. unfold write. eapply ok_bind; [apply ok_load_arr, I|]. intros a. eapply ok_bind; [apply ok_load_buf|]. intros xs. destruct (nth_error (cells a) k); [|apply ok_raise]. apply ok_store; cbn [refs]; mem. Qed.
Lemma ok_scale G l x : In l G -> ok G (scale l x) (fun _ => []).
Proof. intros I. unfold scale. eapply ok_bind; [apply ok_load_arr, I|]. intros a. eapply ok_bind; [apply ok_load_buf|]. intros xs. apply ok_store; cbn [refs]; mem. Qed.

(* ---- one particle ---- *)
Lemma ok_setattr G p a v : In p G -> incl (opt_list v) G -> ok G (setattr p a v) (fun _ => []).
Proof.
  intros I J. unfold setattr. eapply ok_bind; [apply ok_load_part, I|]. intros P. apply ok_store; [mem|]. apply set_at_refs'; intros l Il; apply in_app_iff; auto.
Qed.
Lemma ok_get_v2 G o : ok G (get_v2 o) (fun _ => []).
Proof. unfold get_v2. destruct o; [|apply ok_ret; intros ? []]. eapply ok_bind; [apply ok_read|]. intros [|x [|y [|? ?]]]; try apply ok_raise. apply ok_ret. intros ? []. Qed.
Lemma ok_get_v4 G o : ok G (get_v4 o) (fun _ => []).
Proof. unfold get_v4. destruct o; [|apply ok_ret; intros ? []]. eapply ok_bind; [apply ok_read|]. intros [|x [|y [|z [|w [|? ?]]]]]; try apply ok_raise. apply ok_ret. intros ? []. Qed.
Lemma ok_get_m2 G o : ok G (get_m2 o) (fun _ => []).
Proof. unfold get_m2. destruct o; [|apply ok_ret; intros ? []]. eapply ok_bind; [apply ok_read|]. intros [|x [|y [|z [|w [|? ?]]]]]; try apply ok_raise. apply ok_ret. intros ? []. Qed.
Lemma ok_read_part G p : ok G (read_part p) (fun _ => []).
Proof.
  unfold read_part. eapply ok_bind; [apply ok_load_part_any|]. intros P. do 4 (eapply ok_bind; [apply ok_get_v2|]; intro). do 2 (eapply ok_bind; [apply ok_get_m2|]; intro). do 2 (eapply ok_bind; [apply ok_get_v4|]; intro). apply ok_ret. intros ? [].
Qed.
Lemma ok_new_v2 G sh o : ok G (new_v2 sh o) opt_list.
Proof. unfold new_v2. destruct o; [|apply ok_ret; intros ? []]. eapply ok_bind; [apply ok_new_arr|]. intros l. apply ok_ret. cbn [opt_list]. mem. Qed.
Lemma ok_new_v4 G o : ok G (new_v4 o) opt_list.
Proof. unfold new_v4. destruct o; [|apply ok_ret; intros ? []]. eapply ok_bind; [apply ok_new_arr|]. intros l. apply ok_ret. cbn [opt_list]. mem. Qed.
Lemma ok_new_value G a p : ok G (new_value a p) opt_list.
Proof. destruct a; cbn [new_value]; try apply ok_new_v2; try apply ok_new_v4; (eapply ok_bind; [apply ok_new_arr|]; intros l; apply ok_ret; cbn [opt_list]; mem). Qed.
Lemma ok_conv G a m p : In p G -> ok G (conv a m p) (fun _ => []).
Proof.
  intros I. unfold conv. eapply ok_bind; [apply ok_read_part|]. intros v. destruct (m v) as [v' [u|e]]; [|apply ok_raise]. eapply ok_bind; [apply ok_new_value|]. intros l. apply ok_setattr; [mem|]. intros x Ix. apply in_app_iff. auto.
Qed.
Lemma seq_ok G (c d : H (K := K) unit) : ok G c (fun _ => []) -> ok G d (fun _ => []) -> ok G (bind c (fun _ => d)) (fun _ => []).
Proof. intros C D. eapply ok_bind; [exact C|]. intros u. exact D. Qed.
Lemma ok_h_four_mom G m p : In p G -> ok G (h_four_mom m p) (fun _ => []).
Proof. intros I. unfold h_four_mom. apply ok_try; apply seq_ok; try (apply ok_conv; exact I); apply ok_setattr; try exact I; intros ? []. Qed.
Lemma ok_h_clear G p : In p G -> ok G (h_clear_spinors p) (fun _ => []).
Proof. intros I. unfold h_clear_spinors. repeat apply seq_ok; apply ok_setattr; try exact I; intros ? []. Qed.
Lemma ok_h_spinors G r l p : In p G -> ok G (h_spinors r l p) (fun _ => []).
Proof. intros I. unfold h_spinors. apply ok_try; [repeat apply seq_ok; apply ok_conv; exact I|apply ok_h_clear, I]. Qed.
Lemma ok_shape_of G p a sh : In p G -> ok G (shape_of p a sh) (fun _ => []).
Proof.
  intros I. unfold shape_of. eapply ok_bind; [apply ok_load_part, I|]. intros P. destruct (at_ P a) as [l|] eqn:E; [|apply ok_ret; intros ? []]. apply ok_set_shape. apply in_app_iff. left. exact (part_refs _ _ _ E).
Qed.
Lemma ok_r2_from_spinors G p : In p G -> ok G (h_r2_from_spinors p) (fun _ => []).
Proof. intros I. unfold h_r2_from_spinors. repeat apply seq_ok; try (apply ok_conv; exact I); apply ok_shape_of; exact I. Qed.
Lemma ok_assign G cv a p x : In p G -> In x G -> ok G (h_assign cv a p x) (fun _ => []).
Proof.
  intros I J. assert (S : forall a, ok G (setattr p a (Some x)) (fun _ => [])) by (intros b; apply ok_setattr; [exact I|cbn [opt_list]; mem]).
  destruct a; cbn [h_assign]; unfold h_assign_r_sp_d, h_assign_l_sp_d, h_assign_r_sp_u, h_assign_l_sp_u, h_assign_r2_sp, h_assign_r2_sp_b, h_assign_four_mom, h_assign_four_mom_d;
    repeat apply seq_ok; first [apply S|apply ok_set_shape; exact J|apply ok_conv; exact I|apply ok_shape_of; exact I|apply ok_h_four_mom; exact I|apply ok_h_spinors; exact I].
Qed.
Lemma ok_transpose_at G p a : In p G -> ok G (transpose_at p a) (fun _ => []).
Proof.
  intros I. unfold transpose_at. eapply ok_bind; [apply ok_load_part, I|]. intros P. destruct (at_ P a) as [l|] eqn:E; [|apply ok_raise]. eapply ok_bind; [apply ok_transpose; apply in_app_iff; left; exact (part_refs _ _ _ E)|]. intros t. apply ok_setattr; [mem|cbn [opt_list]; mem].
Qed.
Lemma ok_flip G p : In p G -> ok G (h_flip p) (fun _ => []).
Proof.
  intros I. unfold h_flip. eapply ok_bind; [apply ok_load_part, I|]. intros P. apply seq_ok; [|repeat apply seq_ok; first [apply ok_transpose_at; mem|apply ok_h_four_mom; mem]].
  destruct (at_ P LD) as [l|] eqn:El; [|apply ok_ret; intros ? []]. destruct (at_ P RD) as [r|] eqn:Er; [|apply ok_ret; intros ? []].
  eapply ok_bind; [apply ok_transpose, in_app_iff; left; exact (part_refs _ _ _ Er)|]. intros rt. eapply ok_bind; [apply ok_transpose, in_app_iff; right; apply in_app_iff; left; exact (part_refs _ _ _ El)|]. intros lt.
  repeat apply seq_ok; first [apply ok_setattr; [mem|cbn [opt_list]; mem]|apply ok_conv; mem|idtac]. destruct (hspin P) as [[]|]; [apply ok_scale; mem|apply ok_scale; mem|apply ok_ret; intros ? []].
Qed.
Lemma ok_new_blank G sp : ok G (alloc (PartO (mkHP (fun _ => None) sp))) (fun l => [l]).
Proof. apply ok_alloc. intros x []. Qed.
Lemma ok_new_spinors G r l : In r G -> In l G -> ok G (h_new_spinors r l) (fun p => [p]).
Proof.
  intros I J. unfold h_new_spinors. eapply ok_bind; [apply ok_new_blank|]. intros p. eapply ok_bind; [apply ok_setattr; [mem|cbn [opt_list]; mem]|]. intros ?. eapply ok_bind; [apply ok_conv; mem|]. intros ?.
  eapply ok_bind; [apply (ok_assign _ Symmetric LD); mem|]. intros ?. apply ok_ret. mem.
Qed.
Lemma ok_new_r2 G cv x : In x G -> ok G (h_new_r2 cv x) (fun p => [p]).
Proof.
  intros I. unfold h_new_r2. eapply ok_bind; [apply ok_new_blank|]. intros p. eapply ok_bind; [apply (ok_assign _ cv R2); mem|]. intros ?. apply ok_ret. mem.
Qed.
Lemma ok_add G cv p q : ok G (h_add cv p q) (fun p => [p]).
Proof.
  unfold h_add. eapply ok_bind; [apply ok_read_part|]. intros a. eapply ok_bind; [apply ok_read_part|]. intros b. eapply ok_bind; [apply ok_new_arr|]. intros x. apply ok_new_r2. mem.
Qed.
Lemma ok_shallow G p : In p G -> ok G (h_shallow p) (fun p => [p]).
Proof. intros I. unfold h_shallow. eapply ok_bind; [apply ok_load_part, I|]. intros P. apply ok_alloc. intros l Il. apply in_app_iff. auto. Qed.
Lemma ok_sum_from cv ls : forall G p, In p G -> ok G (h_sum_from cv p ls) (fun p => [p]).
Proof.
  induction ls as [|q t IH]; intros G p I; cbn [h_sum_from]; [apply ok_ret; mem|]. eapply ok_bind; [apply ok_add|]. intros s. apply IH. mem.
Qed.
Lemma ok_sum G cv ls : incl ls G -> ok G (h_sum cv ls) (fun p => [p]).
Proof.
  intros I. unfold h_sum. destruct ls as [|p t]; [apply ok_raise|]. eapply ok_bind; [apply ok_shallow, I; left; reflexivity|]. intros c. apply ok_sum_from. mem.
Qed.

(* ---- deepcopy ---- *)
Definition copies (m : memo) : list loc := map snd m.
Lemma memo_copies m l l' : memo_get m l = Some l' -> In l' (copies m).
Proof. induction m as [|[k v] t IH]; cbn; [discriminate|]. destruct (Nat.eqb k l); [intros E; injection E as <-; auto|auto]. Qed.
Lemma ok_deep_arr G m l : incl (copies m) G -> ok G (deep_arr m l) (fun ml => snd ml :: copies (fst ml)).
Proof.
  intros I. unfold deep_arr. destruct (memo_get m l) as [l'|] eqn:E.
  - apply ok_ret. cbn. intros x [<-|Ix]; [apply I, (memo_copies _ _ _ E)|auto].
  - eapply ok_bind; [apply ok_load_arr_any|]. intros a. eapply ok_bind; [apply ok_read|]. intros xs. eapply ok_bind; [apply ok_new_arr|]. intros l'. apply ok_ret. cbn. intros x [<-|[<-|Ix]]; [left; reflexivity|left; reflexivity|right; apply I, Ix].
Qed.
Lemma ok_deep_attrs P p' ats : forall G m, incl (copies m) G -> In p' G -> ok G (deep_attrs m P p' ats) copies.
Proof.
  induction ats as [|a t IH]; intros G m I J; cbn [deep_attrs]; [apply ok_ret; exact I|]. destruct (at_ P a) as [l|]; [|apply IH; assumption].
  eapply ok_bind; [apply ok_deep_arr, I|]. intros [m' l']. cbn [fst snd]. eapply ok_bind; [apply ok_setattr; [mem|cbn [opt_list]; mem]|]. intros ?. apply IH; [intros x Ix; cbn; rewrite in_app_iff; auto|mem].
Qed.
Lemma ok_deep_part G m p : incl (copies m) G -> ok G (deep_part m p) (fun mp => snd mp :: copies (fst mp)).
Proof.
  intros I. unfold deep_part. destruct (memo_get m p) as [p'|] eqn:E.
  - apply ok_ret. cbn. intros x [<-|Ix]; [apply I, (memo_copies _ _ _ E)|auto].
  - eapply ok_bind; [apply ok_load_part_any|]. intros P. eapply ok_bind; [apply ok_new_blank|]. intros p'. eapply ok_bind; [apply ok_deep_attrs|].
    + cbn. intros x [<-|Ix]; [left; reflexivity|right; apply I, Ix].
    + mem.
    + intros m'. apply ok_ret. cbn. intros x [<-|Ix]; repeat rewrite in_app_iff; cbn; auto.
Qed.
Lemma ok_deep_legs ls : forall G m, incl (copies m) G -> ok G (deep_legs m ls) (fun ls => ls).
Proof.
  induction ls as [|p t IH]; intros G m I; cbn [deep_legs]; [apply ok_ret; intros ? []|]. eapply ok_bind; [apply ok_deep_part, I|]. intros [m' p']. cbn [fst snd]. eapply ok_bind; [apply IH; intros x Ix; cbn; rewrite in_app_iff; auto|]. intros ps'. apply ok_ret. mem.
Qed.

(* ---- a point ---- *)
Lemma ok_image_str G perm s : ok G (h_image_str perm s) (fun t => [t]).
Proof.
  unfold h_image_str. eapply ok_bind; [apply ok_load_point_any|]. intros S. eapply ok_bind; [apply (ok_mapH _ _ (fun _ => [])); intros x _; apply ok_read_part|]. intros vs.
  eapply ok_bind; [apply (ok_lift _ _ (fun _ => [])); intros ? _ ? []|]. intros ls. eapply ok_bind; [apply ok_deep_legs; intros ? []|]. intros ls'. eapply (ok_bind _ _ _ opt_list).
  - destruct (refvec S) as [q|]; [|apply ok_ret; intros ? []]. eapply ok_bind; [apply ok_deep_part; intros ? []|]. intros [m q']. apply ok_ret. cbn. mem.
  - intros rv. eapply ok_bind; [apply ok_load_set|]. intros ns. eapply ok_bind; [apply ok_alloc; intros ? []|]. intros n'. apply ok_alloc. cbn [refs legs refvec mset]. mem.
Qed.
Lemma ok_flip_all G s : In s G -> ok G (h_flip_all s) (fun _ => []).
Proof.
  intros I. unfold h_flip_all. eapply ok_bind; [apply ok_load_point, I|]. intros S. apply ok_eachH. intros x Ix. apply ok_flip. cbn [refs]. mem.
Qed.
Lemma ok_image G rule s : ok G (h_image rule s) (fun t => [t]).
Proof.
  unfold h_image. eapply ok_bind; [apply ok_image_str|]. intros t. eapply (ok_bind _ _ _ (fun _ => [])); [destruct (snd rule); [apply ok_flip_all; mem|apply ok_ret; intros ? []]|]. intros ?. apply ok_ret. mem.
Qed.
Lemma ok_copy G s : ok G (h_copy s) (fun t => [t]).
Proof. unfold h_copy. eapply ok_bind; [apply ok_load_point_any|]. intros S. eapply ok_weaken; [apply (ok_image [])|intros ? []|cbn; mem]. Qed.
Lemma ok_fermion G vs corners t f : In t G -> ok G (h_fermion vs corners t f) (fun _ => []).
Proof.
  intros I. unfold h_fermion. destruct f as [[leg pos] i]. eapply ok_bind; [apply (ok_lift _ _ (fun _ => [])); intros ? _ ? []|]. intros [|a [|b [|? ?]]]; try apply ok_raise.
  eapply ok_bind; [apply (ok_lift _ _ (fun _ => [])); intros ? _ ? []|]. intros RL. eapply ok_bind; [apply (ok_lift _ _ (fun _ => [])); intros ? _ ? []|]. intros ?.
  eapply ok_bind; [apply ok_new_arr|]. intros R. eapply ok_bind; [apply ok_new_arr|]. intros L. eapply ok_bind; [apply ok_column; mem|]. intros r. eapply ok_bind; [apply ok_row; mem|]. intros l.
  eapply ok_bind; [apply ok_load_point; mem|]. intros T. eapply (ok_bind _ _ _ (fun p => [p])); [apply ok_lift; intros p Ep|].
  - assert (In p (legs T)). { unfold getitem in Ep. destruct (rebase (zlen (legs T)) leg) as [k|]; [|discriminate Ep]. cbn [rbind] in Ep. unfold list_get in Ep. destruct (nth_error _ _) eqn:N; [|discriminate Ep]. injection Ep as <-. exact (nth_error_In _ _ N). }
    intros x [<-|[]]. cbn [refs]. mem.
  - intros p. eapply ok_bind; [apply ok_load_part; mem|]. intros P. eapply ok_bind; [apply ok_store; [mem|]|].
    + apply set_at_refs; [|cbn [opt_list]; mem]. apply set_at_refs'; [intros x Ix; apply in_app_iff; auto|cbn [opt_list]; mem].
    + intros ?. apply seq_ok; apply ok_conv; mem.
Qed.
Lemma getitem_In {A} (l : list A) i x : getitem l i = Ok x -> In x l.
Proof. unfold getitem. destruct (rebase (zlen l) i) as [k|]; [|discriminate]. cbn [rbind]. unfold list_get. destruct (nth_error _ _) eqn:N; [|discriminate]. intros E. injection E as <-. exact (nth_error_In _ _ N). Qed.
Lemma rmapM_getitem_In {A} (l : list A) is : forall xs, rmapM (getitem l) is = Ok xs -> incl xs l.
Proof.
  induction is as [|i t IH]; intros xs E; [injection E as <-; intros ? []|]. cbn [rmapM] in E. destruct (getitem l i) as [x|] eqn:G; [|discriminate E]. destruct (rmapM (getitem l) t) as [ys|]; [|discriminate E]. injection E as <-.
  intros y [<-|Iy]; [exact (getitem_In _ _ _ G)|exact (IH ys eq_refl y Iy)].
Qed.
Lemma ok_cluster G cv corners fs s : In s G -> ok G (h_cluster cv corners fs s) (fun t => [t]).
Proof.
  intros I. unfold h_cluster. eapply ok_bind; [apply ok_load_point, I|]. intros S. eapply ok_bind; [apply (ok_mapH _ _ (fun _ => [])); intros x _; apply ok_read_part|]. intros vs.
  eapply ok_bind; [apply (ok_mapH _ _ (fun l => [l])); intros c _; eapply (ok_bind _ _ _ (fun ls => ls)); [apply ok_lift; intros ls E; apply rmapM_getitem_In in E; intros x Ix; apply E in Ix; cbn [refs]; mem|]; intros ls; apply ok_sum; intros x Ix; apply in_app_iff; auto|].
  intros ls. eapply ok_bind; [apply ok_alloc; intros ? []|]. intros n. eapply ok_bind; [apply ok_alloc|].
  - cbn [refs legs refvec mset opt_list]. intros x. rewrite !in_app_iff. cbn [In]. intros [Ix|Ix]; [right; left; apply in_flat_map; exists x; cbn; auto|tauto].
  - intros t. eapply ok_bind; [apply ok_eachH; intros f _; apply ok_fermion; mem|]. intros ?. apply ok_ret. mem.
Qed.
Lemma ok_new_point G ls : incl ls G -> ok G (h_new_point ls) (fun t => [t]).
Proof. intros I. unfold h_new_point. eapply ok_bind; [apply ok_alloc; intros ? []|]. intros n. apply ok_alloc. cbn [refs legs refvec mset opt_list]. intros x. rewrite !in_app_iff. intros [Ix|Ix]; [right; apply I, Ix|cbn in Ix; cbn; tauto]. Qed.
Lemma in_firstn {A} (x : A) n l : In x (firstn n l) -> In x l.
Proof. revert l. induction n as [|n IH]; intros [|y l]; cbn; try tauto. intros [->|H]; auto. Qed.
Lemma in_skipn {A} (x : A) n l : In x (skipn n l) -> In x l.
Proof. revert l. induction n as [|n IH]; intros [|y l]; cbn; try tauto. intros H. right. auto. Qed.
Lemma ok_slice G s i j : In s G -> ok G (h_slice s i j) (fun t => [t]).
Proof.
  intros I. unfold h_slice. eapply ok_bind; [apply ok_load_point, I|]. intros S. eapply ok_bind; [apply ok_alloc; intros ? []|]. intros n. apply ok_alloc. cbn [refs legs refvec mset].
  intros x. rewrite !in_app_iff. intros [Ix|[Ix|Ix]]; [apply in_firstn, in_skipn in Ix| |]; tauto.
Qed.
Lemma ok_with_legs G s f : In s G -> (forall ls ls', f ls = Ok ls' -> incl ls' (ls ++ G)) -> ok G (with_legs s f) (fun _ => []).
Proof.
  intros I J. unfold with_legs. eapply ok_bind; [apply ok_load_point, I|]. intros S. eapply (ok_bind _ _ _ (fun ls => ls)).
  - apply ok_lift. intros ls' E x Ix. apply (J _ _ E) in Ix. cbn [refs]. mem.
  - intros ls. apply ok_store; [mem|]. cbn [refs legs refvec mset]. mem.
Qed.
Lemma list_set_In {A} (v : A) l : forall i l', list_set l i v = Ok l' -> incl l' (v :: l).
Proof.
  induction l as [|x l IH]; intros i l' E; [discriminate E|]. destruct i as [|i]; cbn [list_set] in E; [injection E as <-; intros y [<-|Iy]; cbn; auto|]. destruct (list_set l i v) as [t|] eqn:Et; [|discriminate E]. injection E as <-.
  intros y [<-|Iy]; [cbn; auto|]. apply (IH _ _ Et) in Iy. cbn in *. tauto.
Qed.
Lemma list_del_In {A} l : forall i (l' : list A), list_del l i = Ok l' -> incl l' l.
Proof.
  induction l as [|x l IH]; intros i l' E; [discriminate E|]. destruct i as [|i]; cbn [list_del] in E; [injection E as <-; intros y Iy; cbn; auto|]. destruct (list_del l i) as [t|] eqn:Et; [|discriminate E]. injection E as <-.
  intros y [<-|Iy]; [cbn; auto|]. apply (IH _ _ Et) in Iy. cbn in *. tauto.
Qed.
Lemma list_insert_In {A} (v : A) l : forall i, incl (list_insert l i v) (v :: l).
Proof.
  induction l as [|x l IH]; intros [|i] y; cbn [list_insert]; auto. intros [<-|Iy]; [cbn; auto|]. apply IH in Iy. cbn in *. tauto.
Qed.
Lemma ok_set_refvec G s p : In s G -> In p G -> ok G (set_refvec s p) (fun _ => []).
Proof. intros I J. unfold set_refvec. eapply ok_bind; [apply ok_load_point, I|]. intros S. apply ok_store; [mem|]. cbn [refs legs refvec mset opt_list]. mem. Qed.
Lemma ok_set_mass G s n x : In s G -> ok G (set_mass s n x) (fun _ => []).
Proof.
  intros I. unfold set_mass. eapply ok_bind; [apply ok_load_point, I|]. intros S. eapply ok_bind; [apply ok_load_set|]. intros ns. apply seq_ok; (apply ok_store; [cbn [refs]; mem|cbn [refs legs refvec mset]; mem]).
Qed.

(* ---- commands ---- *)
Lemma ok_var e x : ok e (var e x) (fun l => [l]).
Proof. unfold var. apply ok_lift. intros l E. destruct (nth_error e x) eqn:N; [|discriminate E]. injection E as <-. apply nth_error_In in N. intros y [<-|[]]. exact N. Qed.
Lemma ok_var' G e x : incl e G -> ok G (var e x) (fun l => [l]).
Proof. intros I. unfold var. apply ok_lift. intros l E. destruct (nth_error e x) eqn:N; [|discriminate E]. injection E as <-. apply nth_error_In in N. intros y [<-|[]]. auto. Qed.
Lemma ok_none G (m : H (K := K) unit) : ok G m (fun _ => []) -> ok G (none m) opt_list.
Proof. intros C. eapply ok_bind; [exact C|]. intros ?. apply ok_ret. intros ? []. Qed.
Lemma ok_some G (m : H (K := K) loc) : ok G m (fun l => [l]) -> ok G (some m) opt_list.
Proof. intros C. eapply ok_bind; [exact C|]. intros l. apply ok_ret. cbn [opt_list]. mem. Qed.
Theorem ok_run cv e c : ok e (run cv e c) opt_list.
Proof.
  destruct c; cbn [run]; try (eapply ok_bind; [apply ok_var|]; intros l); try (eapply ok_bind; [apply ok_var'; intros ? ?; apply in_app_iff; auto|]; intros m); try apply ok_none; try apply ok_some.
  - eapply ok_bind; [apply ok_load_point; mem|]. intros S. apply ok_lift. intros p E. apply getitem_In in E. cbn [refs]. intros ? [<-|[]]. mem.
  - eapply ok_bind; [apply ok_load_point; mem|]. intros S. apply ok_ret. cbn [refs]. mem.
  - eapply ok_bind; [apply ok_load_part; mem|]. intros P. apply ok_ret. intros y. destruct (at_ P a) as [q|] eqn:E; [|intros []]. intros [<-|[]]. apply in_app_iff. left. exact (part_refs _ _ _ E).
  - apply ok_new_arr.
  - apply ok_transpose. mem.
  - apply ok_write. mem.
  - apply ok_scale. mem.
  - apply ok_set_shape. mem.
  - apply ok_setattr; [mem|cbn [opt_list]; mem].
  - apply ok_assign; mem.
  - apply ok_flip. mem.
  - apply ok_flip_all. mem.
  - apply ok_with_legs; [mem|]. intros ls ls' E. unfold setitem in E. destruct (rebase _ _); [|discriminate E]. apply list_set_In in E. intros z Iy. apply E in Iy. cbn [In] in Iy. mem.
  - apply ok_with_legs; [mem|]. intros ls ls' E. unfold delitem in E. destruct (rebase _ _); [|discriminate E]. apply list_del_In in E. intros z Iy. apply E in Iy. mem.
  - apply ok_with_legs; [mem|]. intros ls ls' E. unfold insert in E. destruct (rebase _ _); [|discriminate E]. cbn [rbind] in E. injection E as <-. intros z Iy. apply list_insert_In in Iy. cbn [In] in Iy. mem.
  - apply ok_with_legs; [mem|]. intros ls ls' E. injection E as <-. mem.
  - apply ok_set_refvec; mem.
  - apply ok_set_mass. mem.
  - apply ok_new_spinors; mem.
  - apply ok_new_r2. mem.
  - apply ok_add.
  - apply ok_shallow. mem.
  - eapply ok_bind; [apply (ok_mapH _ _ (fun l => [l])); intros x _; apply ok_var|]. intros ls. apply ok_some, ok_new_point. intros x Ix. apply in_app_iff. left. apply in_flat_map. exists x. cbn. auto.
  - apply ok_image.
  - apply ok_copy.
  - apply ok_slice. mem.
  - apply ok_cluster. mem.
Qed.
End Frame.

(* ---- two clients ---- *)
Section Clients.
Context {K : Fld}.
Implicit Types (h : heap K) (A B : loc -> Prop).
Definition within h A : Prop := forall l, A l -> l < length h.
Definition closed h A : Prop := forall l o l', A l -> nth_error h l = Some o -> In l' (refs o) -> A l'.
Definition apart A B : Prop := forall l, A l -> B l -> False.
Definition same_on B h h' : Prop := forall l, B l -> nth_error h' l = nth_error h l.

Lemma start_inv h A : within h A -> closed h A -> Inv h A h.
Proof.
  intros W C. split; [lia|]. split; [reflexivity|]. intros l o l' O E I. assert (L : l < length h) by (apply nth_error_Some; congruence). destruct O as [O|O]; [|lia].
  split; [left; exact (C _ _ _ O E I)|exact (W _ (C _ _ _ O E I))].
Qed.
Lemma act cv e c h A B : within h A -> closed h A -> Forall A e -> apart A B -> within h B ->
  let h' := fst (run cv e c h) in let new := match snd (run cv e c h) with Ok (Some l) => [l] | _ => [] end in
  exists A', within h' A' /\ closed h' A' /\ (forall l, A l -> A' l) /\ apart A' B /\ Forall A' new /\ same_on B h h' /\ length h <= length h'.
Proof.
  intros W C E D WB h' new. destruct (ok_run h A cv e c h (start_inv h A W C)) as (V & L & R).
  { apply Forall_forall. intros l I. assert (X := proj1 (Forall_forall _ _) E l I). split; [left; exact X|exact (W l X)]. }
  fold h' in V, L, R. exists (fun l => own h A l /\ l < length h'). split; [intros l [_ X]; exact X|]. split; [intros l o l' [O _] En I; exact (proj2 (proj2 V) l o l' O En I)|].
  split; [intros l X; split; [left; exact X|specialize (W l X); lia]|]. split; [intros l [[O|O] _] Bl; [exact (D l O Bl)|specialize (WB l Bl); lia]|]. split.
  { subst new. destruct (snd (run cv e c h)) as [[l|]|x]; try constructor; [|constructor]. specialize (R (Some l) eq_refl). inversion R; assumption. }
  split; [|exact L]. intros l Bl. apply (proj1 (proj2 V)); [exact (WB l Bl)|]. intros Al. exact (D l Al Bl).
Qed.
Lemma look_same h h' B : closed h B -> same_on B h h' -> forall n l, B l -> look n h' l = look n h l.
Proof.
  intros C S n. induction n as [|n IH]; intros l Bl; [reflexivity|]. cbn [look]. rewrite (S l Bl). destruct (nth_error h l) as [o|] eqn:E; [|reflexivity]. f_equal. apply map_ext_in. intros l' I. apply IH. exact (C _ _ _ Bl E I).
Qed.
Lemma same_closed h h' B : closed h B -> same_on B h h' -> closed h' B.
Proof. intros C S l o l' Bl E I. rewrite (S l Bl) in E. exact (C _ _ _ Bl E I). Qed.
Definition separate (st : clients K) : Prop :=
  exists A B, within (mem st) A /\ closed (mem st) A /\ Forall A (one st) /\ within (mem st) B /\ closed (mem st) B /\ Forall B (two st) /\ apart A B.
Lemma turn_separate cv st wc : separate st -> separate (turn cv st wc) /\
  (fst wc = true -> forall n l, In l (two st) -> look n (mem (turn cv st wc)) l = look n (mem st) l) /\
  (fst wc = false -> forall n l, In l (one st) -> look n (mem (turn cv st wc)) l = look n (mem st) l).
Proof.
  intros (A & B & WA & CA & EA & WB & CB & EB & D). destruct wc as [[|] c]; unfold turn; cbn [fst snd].
  - assert (T := act cv (one st) c (mem st) A B WA CA EA D WB). destruct (run cv (one st) c (mem st)) as [h' r]. cbn [fst snd] in T. destruct T as (A' & W' & C' & Sub & D' & N' & Sm & L). split; [|split; [|discriminate]].
    + exists A', B. cbn [mem one two]. split; [exact W'|]. split; [exact C'|]. split; [apply Forall_app; split; [eapply Forall_impl; [exact Sub|exact EA]|exact N']|]. split; [intros l Bl; specialize (WB l Bl); lia|]. split; [exact (same_closed _ _ _ CB Sm)|]. split; [exact EB|exact D'].
    + intros _ n l I. cbn [mem]. apply (look_same _ _ B CB Sm). exact (proj1 (Forall_forall _ _) EB l I).
  - assert (D2 : apart B A) by (intros l Bl Al; exact (D l Al Bl)). assert (T := act cv (two st) c (mem st) B A WB CB EB D2 WA). destruct (run cv (two st) c (mem st)) as [h' r]. cbn [fst snd] in T. destruct T as (B' & W' & C' & Sub & D' & N' & Sm & L). split; [|split; [discriminate|]].
    + exists A, B'. cbn [mem one two]. split; [intros l Al; specialize (WA l Al); lia|]. split; [exact (same_closed _ _ _ CA Sm)|]. split; [exact EA|]. split; [exact W'|]. split; [exact C'|]. split; [apply Forall_app; split; [eapply Forall_impl; [exact Sub|exact EB]|exact N']|]. intros l Al Bl. exact (D' l Bl Al).
    + intros _ n l I. cbn [mem]. apply (look_same _ _ A CA Sm). exact (proj1 (Forall_forall _ _) EA l I).
Qed.
Lemma turns_separate cv p : forall st, separate st -> separate (turns cv st p).
Proof. induction p as [|wc p IH]; intros st S; [exact S|]. cbn [turns fold_left]. apply IH. apply turn_separate, S. Qed.

(* a new point *)
Lemma image_new rule s h h1 t : no_dangling h -> h_image rule s h = (h1, Ok t) ->
  (forall l, l < length h -> nth_error h1 l = nth_error h l) /\ forall e, Forall (fun l => l < length h) e -> separate (mkC h1 e [t]).
Proof.
  intros N E. assert (V0 : Inv h (fun _ => False) h) by (split; [lia|]; split; [reflexivity|]; intros l o l' [[]|O] En _; assert (l < length h) by (apply nth_error_Some; congruence); lia).
  destruct (ok_image h (fun _ => False) [] rule s h V0 (Forall_nil _)) as (V & L & R). rewrite E in V, L, R. cbn [fst snd] in V, L, R. specialize (R t eq_refl). destruct V as (_ & Fr & Cl).
  assert (Sm : forall l, l < length h -> nth_error h1 l = nth_error h l) by (intros l Ll; apply Fr; [exact Ll|tauto]). split; [exact Sm|]. intros e He.
  exists (fun l => l < length h), (fun l => length h <= l < length h1). cbn [mem one two]. split; [intros l X; lia|]. split; [intros l o l' X En I; rewrite (Sm l X) in En; exact (N _ _ _ En I)|]. split; [exact He|]. split; [intros l X; lia|].
  split; [intros l o l' X En I; destruct (Cl l o l') as [[[]|O] Q]; [right; lia|exact En|exact I|split; [exact O|exact Q]]|]. split; [|intros l X Y; lia].
  constructor; [|constructor]. inversion R as [|x y [[[]|O] Q] _]; subst. split; [exact O|exact Q].
Qed.
Theorem image_independent cv h s rule t h1 e : no_dangling h -> h_image rule s h = (h1, Ok t) -> Forall (fun l => l < length h) e ->
  forall p c n, let st := turns cv (mkC h1 e [t]) p in
  (forall l, In l (one st) -> look n (mem (turn cv st (false, c))) l = look n (mem st) l) /\
  (forall l, In l (two st) -> look n (mem (turn cv st (true, c))) l = look n (mem st) l).
Proof.
  intros N E He p c n st. destruct (image_new rule s h h1 t N E) as (_ & S). specialize (S e He). apply (turns_separate cv p) in S. fold st in S. split; intros l I.
  - exact (proj2 (proj2 (turn_separate cv st (false, c) S)) eq_refl n l I).
  - exact (proj1 (proj2 (turn_separate cv st (true, c) S)) eq_refl n l I).
Qed.
Lemma copy_image s h r : h_copy s h = r -> exists rule, h_image rule s h = r \/ (forall t h', r <> (h', Ok t)).
Proof.
  unfold h_copy, bind. destruct (load_point s h) as [h' [S|x]] eqn:E; intros <-.
  - exists (identity (length (legs S))). left. assert (h' = h); [|congruence]. unfold load_point, bind, load in E. destruct (nth_error h s) as [o|]; [|congruence]. destruct o; unfold ret, raise in E; congruence.
  - exists ([], false). right. intros t h'' X. discriminate X.
Qed.
End Clients.
