(* The values of chains with massive spinors at both ends. *)
From Coq Require Import Ascii String.
From Coq Require Import List ZArith Bool Lia Field.
From Verif Require Import Base Fld Particle ParticleSpec ParticleThm Index IndexThm Phase PhaseThm Compute ComputeThm Str Regex RegexThm Masses MassesThm Parse ParseChars ParseWrap ParseOpen Text TextSpec TextThm TextThm2 TextThm3 TextThm4 TextThm6 TextThm7 Tensor TensorThm TensorText TensorTree TensorChain TensorSpec TensorEval.
Import ListNotations.
Open Scope Z_scope.
Open Scope res_scope.

(* ---- the text of an entry ---- *)
Lemma entry_sums e c : entry_ok e -> In c (entry_text e) -> sums c.
Proof. intros O I. apply entry_chars in I; [|exact O]. unfold sums. cbn. lia. Qed.
Lemma np_single (f g : Z -> bool) u : (forall c, In c u -> f c = false) -> no_pair f g u.
Proof. induction u as [|x u IH]; intros H; [exact I|]. split; [destruct u; [apply andb_false_r || reflexivity|rewrite (H x (or_introl eq_refl)); reflexivity]|]. apply IH. intros c Ic. apply H. right. exact Ic. Qed.
Lemma np_right (f g : Z -> bool) u : (forall c, In c u -> g c = false) -> no_pair f g u.
Proof. induction u as [|x u IH]; intros H; [exact I|]. split; [destruct u as [|y u]; [apply andb_false_r|rewrite (H y (or_intror (or_introl eq_refl))); apply andb_false_r]|]. apply IH. intros c Ic. apply H. right. exact Ic. Qed.
Lemma shown_between e t : shows_entry e t -> between t.
Proof.
  intros [e0 O|e0 O].
  - split.
    + apply Forall_forall. intros c I. exact (entry_sums _ _ O I).
    + apply m_plus_one. destruct e0 as (i, l), O as [I F]. exists []. apply par_r. apply seps_piece. rewrite <- (app_nil_r (entry_text _)). apply seps_entry; auto.
    + assert (N : forall k, (k = 40 \/ k = 41) -> forall c, In c (entry_text e0) -> is_c k c = false).
      { intros k Hk c I. apply entry_chars in I; [|exact O]. apply Z.eqb_neq. lia. }
      repeat split; [apply np_right|apply np_single|apply np_single]; apply N; auto.
  - change (lit "(") with [40]. change (lit ")") with [41]. cbn [app]. split.
    + constructor; [cbn; tauto|]. apply Forall_app. split; [|constructor; [cbn; tauto|constructor]]. apply Forall_forall. intros c I. exact (entry_sums _ _ O I).
    + apply m_plus_one. destruct (mid_entry e0 O) as [N F]. exists []. apply par_l. change (40 :: entry_text e0 ++ [41]) with ([40] ++ entry_text e0 ++ [] ++ [41]). apply seq0; [apply rc1|]. apply seq0; [apply par_plus_chr; auto|]. apply seq0; [constructor|apply rc1].
    + assert (N : forall k, (k = 40 \/ k = 41) -> forall c, In c (entry_text e0) -> is_c k c = false).
      { intros k Hk c I. apply entry_chars in I; [|exact O]. apply Z.eqb_neq. lia. }
      assert (E : exists x u, entry_text e0 = x :: u) by (destruct (mid_entry e0 O) as [NN _]; destruct (entry_text e0) as [|x u]; [congruence|eauto]). destruct E as (x & u & E).
      assert (R : forall f g, no_pair f g (entry_text e0) -> g 41 = false -> no_pair f g (entry_text e0 ++ [41])).
      { intros f g P G. apply no_pair_app; [exact P|exact G|split; [apply andb_false_r|exact I]]. }
      assert (D : forall f g, f 40 = false -> no_pair f g (entry_text e0 ++ [41]) -> no_pair f g (40 :: entry_text e0 ++ [41])).
      { intros f g F0 P. split; [rewrite E in *; cbn [app]; rewrite F0; reflexivity|exact P]. }
      repeat split; apply D; try reflexivity; apply R; try reflexivity; [apply np_right|apply np_single|apply np_single]; apply N; auto.
Qed.

Section Chain.
Context {K : Fld}.
Add Field Kfchn : (fth K).
Open Scope fld_scope.
Definition amat (m : m2 K) : wval K := XArr [[VElt (m00 m); VElt (m01 m)]; [VElt (m10 m); VElt (m11 m)]].
Lemma weval_bin (o : pystr -> result (wval K)) b L R x y : weval o L = Ok x -> weval o R = Ok y -> weval o (WBin b L R) = binop b x y.
Proof. intros E F. cbn [weval]. rewrite E, F. reflexivity. Qed.
Lemma prod_mid (o : pystr -> result (wval K)) L D R a m b : weval o L = Ok (arow a) -> weval o D = Ok (amat m) -> weval o R = Ok (acol b) ->
  rmap pop (weval o (WBin BMat (WBin BMat L D) R)) = Ok (XNum (VElt (vdot (vm a m) b))).
Proof. intros A B C. rewrite (weval_bin o BMat _ _ (arow (vm a m)) (acol b)); [reflexivity| |exact C]. rewrite (weval_bin o BMat _ _ _ _ A B). reflexivity. Qed.
Lemma dot_mid (o : pystr -> result (wval K)) M m : weval o (mid_of M) = Ok (amat m) -> weval o (mid_dot M) = Ok (amat (adj m)).
Proof.
  intros E. unfold mid_dot, mid_of in *. cbn [weval] in *. rewrite E. cbn -[fadd fmul fopp f0 f1]. unfold amat, adj. cbn [m00 m01 m10 m11]. repeat (f_equal; try reflexivity); try ring.
Qed.
Variables (s : ps K) (A : dict (@mval K)) (f : nat).
Hypothesis SP : spinors_all s.
Notation o := (compute_wide (S f) s A).
Lemma mid_value e t : shows_entry e t -> legs_in s e -> exists m, middle true s [e] = Ok m /\ weval o (mid_of t) = Ok (amat m).
Proof.
  intros H I. destruct (entry_val_ok s SP true e I) as (m & E). exists m. assert (Q : middle true s [e] = Ok m) by (cbn [middle]; rewrite E; reflexivity). split; [exact Q|].
  unfold mid_of. cbn [weval]. apply (wide_shows s A f (IDouble [e]) (124%Z :: t ++ [124%Z]) (VMat m)).
  - apply (w_double [e] t). right. split; [reflexivity|apply last_entry, H].
  - cbn [compute]. rewrite Q. reflexivity.
Qed.
Lemma small_sums M t : between M -> (forall x, In x t -> (x < 120782)%Z) -> forall x, In x (M ++ t) -> (x < 120782)%Z.
Proof. intros [F _ _] H x I. apply in_app_iff in I. destruct I as [I|I]; [|exact (H x I)]. apply (proj1 (Forall_forall _ _) F) in I. cbn in I. lia. Qed.
Ltac smalls := repeat first [apply small_text; [reflexivity|] | apply small_dec; [lia|] | apply small_sums; [assumption|] | intros ? []].
Ltac ins := repeat first [left; reflexivity | right | apply in_app_iff; right].
Ltac mark k c := apply (class_mark _ k c); [ins|left; reflexivity| | |]; cbn; unfold angle, low, up in *; lia.
Theorem chain_angle i j k l e t p : angle_open p -> In k lower -> In l upper -> shows_entry e t -> legs_in s e -> end_in s i (i + 1) -> end_in s j (j + 1) ->
  exists v, compute s (IChain OAng (i + 1) [e] (j + 1) CSq) = Ok (VS v) /\
    compute_wide (S (S f)) s A (opening p ++ dec i ++ [k] ++ lit "|" ++ t ++ lit "|" ++ dec j ++ [l] ++ lit "]") = Ok (XNum (VElt (- v))).
Proof.
  intros Hp Hk Hl S E Hi Hj. destruct (ends_in s _ _ _ _ (massive_end lower i k Hk) Hi) as [Ri Li], (ends_in s _ _ _ _ (massive_end upper j l Hl) Hj) as [Rj Lj].
  destruct (opening_angle p Hp) as (c & -> & Hc). apply low_in in Hk. apply up_in in Hl. change (lit "|") with [124%Z]. change (lit "]") with [93%Z]. cbn [app].
  assert (B := shown_between e t S). destruct (mid_value e t S E) as (m & Em & Vm).
  destruct (row_A s A f SP i Li Ri) as (x & a & ? & _ & G & Ra & Va), (col_S s A f SP j Lj Rj) as (y & b & G2 & Rb & Vb).
  exists (vdot (vm a m) b). split.
  - cbn [compute]. unfold c_chain. cbn [negb bracket_ok length Nat.even]. rewrite G. cbn [rbind]. rewrite Em. cbn [rbind]. rewrite Ra. cbn [need_r rbind]. rewrite G2. cbn [rbind]. rewrite Rb. reflexivity.
  - rewrite (read_text s A f _ (mid_C1 i j t) (WBin BMat (WBin BMat (row_of 10216 WEps i) (mid_of t)) (col_of WEps j 93))).
    + rewrite (prod_mid _ _ _ _ _ _ _ Va Vm Vb). unfold minus, vdot. cbn [e0 e1]. do 3 f_equal. ring.
    + unfold angle, low, up in *. destruct Hc as [-> | ->], Hk as [-> | ->], Hl as [-> | ->]; smalls.
    + mark k c.
    + apply front_C1; assumption || lia.
    + apply tree_C1; assumption || lia.
Qed.
Theorem chain_square i j k l e t q : barred s -> angle_close q -> In k upper -> In l lower -> shows_entry e t -> legs_in s e -> end_in s i (i + 1) -> end_in s j (j + 1) -> (i <= 8)%Z ->
  exists v, compute s (IChain OSq (i + 1) [e] (j + 1) CAng) = Ok (VS v) /\
    compute_wide (S (S f)) s A (lit "[" ++ dec i ++ [k] ++ lit "|" ++ t ++ lit "|" ++ dec j ++ [l] ++ closing q) = Ok (XNum (VElt (- v))).
Proof.
  intros Bar Hq Hk Hl S E Hi Hj I8. destruct (ends_in s _ _ _ _ (massive_end upper i k Hk) Hi) as [Ri Li], (ends_in s _ _ _ _ (massive_end lower j l Hl) Hj) as [Rj Lj].
  destruct (closing_angle q Hq) as (c & -> & Hc). apply up_in in Hk. apply low_in in Hl. change (lit "|") with [124%Z]. change (lit "[") with [91%Z]. cbn [app].
  assert (B := shown_between e t S). destruct (mid_value e t S E) as (m & Em & Vm). assert (Vd := dot_mid _ _ _ Vm).
  destruct (row_S s A f SP i Li Ri) as (x & a & ? & _ & G & Ra & Va), (col_A s A f SP j Lj Rj) as (y & b & G2 & Rb & Vb).
  exists (vdot (vm a (adj m)) b). split.
  - assert (Em' : middle false s [e] = Ok (adj m)).
    { cbn [middle] in *. rewrite (entry_val_flag true s e Bar) in Em. destruct (entry_val false s e) as [m'|]; [|discriminate Em]. cbn in Em. injection Em as <-. cbn. rewrite adj_adj. reflexivity. }
    cbn [compute]. unfold c_chain. cbn [negb bracket_ok length Nat.even]. rewrite G. cbn [rbind]. rewrite Em'. cbn [rbind]. rewrite Ra. cbn [need_r rbind]. rewrite G2. cbn [rbind]. rewrite Rb. reflexivity.
  - rewrite (read_text s A f _ (mid_C2 i j t) (WBin BMat (WBin BMat (row_of 91 (WNeg WEps) i) (mid_dot t)) (col_of (WNeg WEps) j 10217))).
    + rewrite (prod_mid _ _ _ _ _ _ _ Va Vd Vb). unfold minus, vdot, vm. cbn [e0 e1]. do 3 f_equal. ring.
    + unfold shut, low, up in *. destruct Hc as [-> | ->], Hk as [-> | ->], Hl as [-> | ->]; smalls.
    + mark k 91%Z.
    + apply front_C2; assumption || lia.
    + apply tree_C2; assumption || lia.
Qed.
End Chain.
Section Reversed.
Context {K : Fld}.
Open Scope fld_scope.
Lemma chain_reversed (s : ps K) i e j v : Forall (fun p => consistent p) s -> compute s (IChain OAng i [e] j CSq) = Ok (VS v) -> compute s (IChain OSq j [e] i CAng) = Ok (VS v).
Proof.
  intros C E. assert (Bar := consistent_barred s C). cbn [compute] in *. unfold c_chain in *. cbn [negb bracket_ok length Nat.even] in *. destruct (getitem s i) as [p|] eqn:Gi; [|discriminate E]. cbn [rbind] in E.
  assert (Cp : consistent p) by exact (proj1 (Forall_getitem _ _) C i p Gi). cbn [middle] in *. rewrite (entry_val_flag true s e Bar) in E. destruct (entry_val false s e) as [m|]; [|discriminate E]. cbn [rmap rbind mid_rest] in *.
  rewrite (cons_r _ Cp) in E. destruct (r_d p) as [x|]; [|discriminate E]. cbn [option_map need_r rbind] in *. destruct (getitem s j) as [q|] eqn:Gj; [|discriminate E]. cbn [rbind] in *.
  assert (Cq : consistent q) by exact (proj1 (Forall_getitem _ _) C j q Gj). rewrite (cons_l _ Cq) in E. destruct (l_d q) as [y|]; [|discriminate E]. cbn [option_map need_r rbind rmap flagm] in *.
  injection E as <-. rewrite adj_mixed, adj_adj. reflexivity.
Qed.
Theorem reversed (s : ps K) A f i j k l e t p q : spinors_all s -> Forall (fun p => consistent p) s -> angle_open p -> angle_close q -> In k lower -> In l upper -> shows_entry e t -> legs_in s e ->
  end_in s i (i + 1) -> end_in s j (j + 1) -> (j <= 8)%Z ->
  exists v, compute_wide (S (S f)) s A (opening p ++ dec i ++ [k] ++ lit "|" ++ t ++ lit "|" ++ dec j ++ [l] ++ lit "]") = Ok (XNum (VElt v)) /\
    compute_wide (S (S f)) s A (lit "[" ++ dec j ++ [l] ++ lit "|" ++ t ++ lit "|" ++ dec i ++ [k] ++ closing q) = Ok (XNum (VElt v)).
Proof.
  intros SP C Hp Hq Hk Hl S E Hi Hj J8. destruct (chain_angle s A f SP i j k l e t p Hp Hk Hl S E Hi Hj) as (v & E1 & V1).
  destruct (chain_square s A f SP j i l k e t q (consistent_barred s C) Hq Hl Hk S E Hj Hi J8) as (w & E2 & V2). apply (chain_reversed s _ _ _ _ C) in E1. rewrite E1 in E2. injection E2 as <-. exists (- v)%fld. auto.
Qed.
End Reversed.
