(* The values of chains with a massive spinor at one end and a massless one at the other. *)
From Coq Require Import Ascii String.
From Coq Require Import List ZArith Bool Lia Field.
From Verif Require Import Base Fld Particle ParticleSpec ParticleThm Index IndexThm Phase PhaseThm Compute ComputeThm Str Regex RegexThm Masses MassesThm Parse ParseChars ParseWrap ParseOpen Text TextSpec TextThm TextThm2 TextThm3 TextThm4 TextThm6 TextThm7 Tensor TensorThm TensorText TensorTree TensorChain TensorMixed TensorSpec TensorEval TensorChainThm.
Import ListNotations.
Open Scope Z_scope.
Open Scope res_scope.

(* ---- the beginning and the end of a sum ---- *)
Lemma entry_head i l : 0 <= i <= 9 -> exists d u, entry_text (i, l) = d :: u /\ is_digit d = true /\ (l = [] /\ u = [] \/ exists c v, u = c :: v /\ sep c = true).
Proof.
  intros Hi. destruct (ParseChars.one_digit i Hi) as (d & E & D). unfold entry_text. cbn [fst snd]. rewrite E. cbn [app]. eexists d, _. split; [reflexivity|]. split; [exact D|].
  destruct l as [|(b, j) l]; [left; auto|right]. cbn [map concat fst snd]. destruct b; cbn; eauto.
Qed.
Lemma entry_last l : forall i, 0 <= i -> Forall (fun x : bool * Z => 0 <= snd x) l -> last (map snd l) i <= 9 ->
  exists d u, entry_text (i, l) = u ++ [d] /\ is_digit d = true /\ (l = [] /\ u = [] \/ exists c v, u = v ++ [c] /\ sep c = true).
Proof.
  intros i Hi F L. induction l as [|(b, j) l _] using rev_ind.
  - cbn in L. destruct (ParseChars.one_digit i) as (d & E & D); [unfold ParseSpec.label; lia|]. exists d, []. unfold entry_text. cbn [fst snd map concat]. rewrite app_nil_r, E. auto.
  - rewrite map_app in L. cbn [map snd] in L. rewrite last_last in L. apply Forall_app in F. destruct F as [_ F]. inversion F as [|? ? Hj _]; subst. cbn [snd] in Hj.
    destruct (ParseChars.one_digit j) as (d & E & D); [unfold ParseSpec.label; lia|]. exists d, (entry_text (i, l) ++ sign_text b). unfold entry_text. cbn [fst snd]. rewrite map_app, concat_app. cbn [map concat fst snd]. rewrite app_nil_r, E, <- !app_assoc. split; [reflexivity|]. split; [exact D|].
    right. destruct b; eexists _, _; (split; [rewrite app_assoc; reflexivity|reflexivity]).
Qed.
Lemma shown_leads e t : shows_entry e t -> fst e <= 9 -> single_bare e t -> leads t.
Proof.
  intros [e0 O|e0 O] L S r; destruct e0 as (i, l), O as [I F]; cbn [fst snd] in *; destruct (entry_head i l) as (d & u & E & D & C); try lia; unfold before_sum, not_ahead.
  - rewrite E. cbn [app looks]. rewrite D. destruct C as [(_ & ->)|(c & v & -> & C)]; cbn [app andb looks]; [reflexivity|rewrite C; reflexivity].
  - change (lit "(") with [40]. change (lit ")") with [41]. cbn [app]. rewrite E. cbn [app looks]. rewrite D. destruct C as [(-> & ->)|(c & v & -> & C)].
    + exfalso. specialize (S eq_refl). apply (f_equal (@length Z)) in S. rewrite !app_length in S. cbn [length lit] in S. change (length (lit "(")) with 1%nat in S. lia.
    + cbn [app andb looks]. rewrite C. reflexivity.
Qed.
Lemma shown_trails e t : shows_entry e t -> last_label e <= 9 -> single_bare e t -> trails t.
Proof.
  unfold last_label. intros [e0 O|e0 O] L S b; destruct e0 as (i, l), O as [I F]; cbn [fst snd] in *; destruct (entry_last l i I F L) as (d & u & E & D & C); unfold after_sum, not_behind; cbn [rev app].
  - rewrite E, rev_app_distr. cbn [rev app looks]. rewrite D. destruct C as [(_ & ->)|(c & v & -> & C)]; [cbn; apply andb_false_r|]. rewrite rev_app_distr. cbn [rev app looks]. rewrite C. cbn. apply andb_false_r.
  - change (lit "(") with [40]. change (lit ")") with [41]. cbn [app]. change (rev (40 :: entry_text (i, l) ++ [41])) with (rev (entry_text (i, l) ++ [41]) ++ [40]). rewrite rev_app_distr, E, rev_app_distr. cbn [rev app looks]. rewrite D. destruct C as [(-> & ->)|(c & v & -> & C)].
    + exfalso. specialize (S eq_refl). apply (f_equal (@length Z)) in S. rewrite !app_length in S. change (length (lit "(")) with 1%nat in S. lia.
    + rewrite rev_app_distr. cbn [rev app looks]. rewrite C. reflexivity.
Qed.
Lemma shown_begins e t : shows_entry e t -> begins t.
Proof.
  intros [e0 O|e0 O]; destruct e0 as (i, l), O as [I F]; cbn [fst snd] in *.
  - apply m_plus_one. exists []. apply par_r. apply seps_piece. rewrite <- (app_nil_r (entry_text _)). apply seps_entry; auto.
  - apply m_plus_one. exists []. apply par_l. change (lit "(" ++ entry_text (i, l) ++ lit ")") with ([40] ++ entry_text (i, l) ++ [41]). apply seq0; [apply rc1|]. apply seq0; [|apply rc1]. apply seps_piece. rewrite <- (app_nil_r (entry_text _)). apply seps_entry; auto.
Qed.
Lemma class_shut u x y : In x u -> In y u -> In x [95; 100] -> In y [10217; 62] -> classify u = TExpr.
Proof.
  intros I J Hx Hy. unfold classify. cbn in Hx, Hy.
  repeat (destruct Hx as [<-|Hx]; [repeat (destruct Hy as [<-|Hy]; [repeat match goal with |- context [search ?r u] => first [rewrite (fun H => no_char r u _ H I) by reflexivity | rewrite (fun H => no_char r u _ H J) by reflexivity] end; reflexivity|]); destruct Hy|]); destruct Hx.
Qed.

Section Ends.
Context {K : Fld}.
Add Field Kfmxd : (fth K).
Open Scope fld_scope.
Variables (s : ps K) (A : dict (@mval K)) (f : nat).
Hypothesis SP : spinors_all s.
Notation o := (compute_wide (S f) s A).
Lemma end_A i e t p a (m : m2 K) : (0 <= i)%Z -> shows_entry e t -> getitem s i = Ok p -> r_u p = Some a -> middle true s [e] = Ok m -> weval o (open_end_of 10216 i t) = Ok (arow (vm a m)).
Proof.
  intros Hi S G R E. unfold open_end_of. cbn [weval]. apply (wide_shows s A f (IOpenEnd OAng i [e]) (10216%Z :: dec i ++ 124%Z :: t ++ [124%Z]) (VRow (vm a m))).
  - apply (w_open_end OAng i [e] t Hi); [discriminate|]. right. split; [reflexivity|apply last_entry, S].
  - cbn [compute]. unfold c_open_end. rewrite G. cbn [rbind]. rewrite E. cbn [rbind]. rewrite R. reflexivity.
Qed.
Lemma end_S i e t p a (m : m2 K) : (0 <= i)%Z -> shows_entry e t -> getitem s i = Ok p -> l_d p = Some a -> middle false s [e] = Ok m -> weval o (open_end_of 91 i t) = Ok (arow (vm a m)).
Proof.
  intros Hi S G R E. unfold open_end_of. cbn [weval]. apply (wide_shows s A f (IOpenEnd OSq i [e]) (91%Z :: dec i ++ 124%Z :: t ++ [124%Z]) (VRow (vm a m))).
  - apply (w_open_end OSq i [e] t Hi); [discriminate|]. right. split; [reflexivity|apply last_entry, S].
  - cbn [compute]. unfold c_open_end. rewrite G. cbn [rbind]. rewrite E. cbn [rbind]. rewrite R. reflexivity.
Qed.
Lemma begin_A j e t p b (m : m2 K) : (0 <= j)%Z -> shows_entry e t -> getitem s j = Ok p -> r_d p = Some b -> middle false s [e] = Ok m -> weval o (open_begin_of t j 10217) = Ok (acol (mv m b)).
Proof.
  intros Hj S G R E. unfold open_begin_of. cbn [weval]. apply (wide_shows s A f (IOpenBegin [e] j CAng) (124%Z :: t ++ 124%Z :: dec j ++ [10217%Z]) (VCol (mv m b))).
  - apply (w_open_begin [e] t j CAng Hj); [discriminate|]. right. split; [reflexivity|apply last_entry, S].
  - cbn [compute]. unfold c_open_begin. cbn [length Nat.even]. rewrite E. cbn [rbind]. rewrite G. cbn [rbind]. rewrite R. reflexivity.
Qed.
Lemma begin_S j e t p b (m : m2 K) : (0 <= j)%Z -> shows_entry e t -> getitem s j = Ok p -> l_u p = Some b -> middle true s [e] = Ok m -> weval o (open_begin_of t j 93) = Ok (acol (mv m b)).
Proof.
  intros Hj S G R E. unfold open_begin_of. cbn [weval]. apply (wide_shows s A f (IOpenBegin [e] j CSq) (124%Z :: t ++ 124%Z :: dec j ++ [93%Z]) (VCol (mv m b))).
  - apply (w_open_begin [e] t j CSq Hj); [discriminate|]. right. split; [reflexivity|apply last_entry, S].
  - cbn [compute]. unfold c_open_begin. cbn [length Nat.odd Nat.even negb]. change (Nat.odd 1) with true. rewrite E. cbn [rbind]. rewrite G. cbn [rbind]. rewrite R. reflexivity.
Qed.
Ltac smalls := repeat first [apply small_text; [reflexivity|] | apply small_dec; [lia|] | apply small_sums; [assumption|] | intros ? []].
Ltac ins := repeat first [left; reflexivity | right | apply in_app_iff; right].
Ltac mark k c := apply (class_mark _ k c); [ins|left; reflexivity| | |]; cbn; unfold angle, low, up in *; lia.
Theorem ends_angle i i' t j j' u e m p : angle_open p -> end_text lower i i' t -> end_text upper j j' u -> shows_entry e m -> legs_in s e -> end_in s i i' -> end_in s j j' -> mixed_ok i i' j j' e m -> (i = i' -> j = j' -> p = OAng) ->
  exists v, compute s (IChain OAng i' [e] j' CSq) = Ok (VS v) /\
    compute_wide (S (S f)) s A (opening p ++ t ++ lit "|" ++ m ++ lit "|" ++ u ++ lit "]") = Ok (XNum (VElt (spin_sign j j' * v))).
Proof.
  intros Hp Et Eu S E Hi Hj [X1 X2] X0. destruct (ends_in s _ _ _ _ Et Hi) as [Ri Li], (ends_in s _ _ _ _ Eu Hj) as [Rj Lj]. assert (B := shown_between e m S).
  destruct (entry_val_ok s SP true e E) as (w & Ew). assert (Em : middle true s [e] = Ok w) by (cbn [middle]; rewrite Ew; reflexivity).
  destruct (four_of s SP i' Ri) as (x & a & ? & ? & ? & G & Ra & _), (four_of s SP j' Rj) as (y & ? & ? & b & ? & G2 & _ & _ & Rb & _).
  assert (Q : compute s (IChain OAng i' [e] j' CSq) = Ok (VS (vdot (vm a w) b))).
  { cbn [compute]. unfold c_chain. cbn [negb bracket_ok length Nat.even]. rewrite G. cbn [rbind]. rewrite Em. cbn [rbind]. rewrite Ra. cbn [need_r rbind]. rewrite G2. cbn [rbind]. rewrite Rb. reflexivity. }
  exists (vdot (vm a w) b). split; [exact Q|]. destruct Et as [|k Hk], Eu as [|l Hl]; rewrite ?spin_same, ?spin_next.
  - assert (W := w_chain OAng i [e] m j CSq ltac:(lia) ltac:(lia) (last_entry e m S)). assert (V := wide_shows s A (Datatypes.S f) _ _ _ W Q).
    replace (1 * vdot (vm a w) b) with (vdot (vm a w) b) by (unfold vdot; ring). rewrite X0 by reflexivity. exact V.
  - destruct (opening_angle p Hp) as (c & -> & Hc). apply up_in in Hl. change (lit "|") with [124%Z]. change (lit "]") with [93%Z]. rewrite <- ?app_assoc. cbn [app].
    destruct X1 as [X1 X3]; [reflexivity|lia|]. assert (L := shown_leads e m S X1 X3). destruct (col_S s A f SP j Lj Rj) as (y' & b' & G2' & Rb' & Vb). rewrite G2 in G2'. injection G2' as <-. rewrite Rb in Rb'. injection Rb' as <-.
    rewrite (read_text s A f _ (mid_D1 i j m) (WBin BMat (open_end_of 10216 i m) (col_of WEps j 93))).
    + rewrite (prod_of _ _ _ _ _ (end_A i e m x a w ltac:(lia) S G Ra Em) Vb). unfold minus, vdot. cbn [e0 e1]. do 3 f_equal. ring.
    + unfold angle, up in *. destruct Hc as [-> | ->], Hl as [-> | ->]; smalls.
    + mark l c.
    + apply front_D1; assumption || lia.
    + apply tree_D1; assumption || lia.
  - destruct (opening_angle p Hp) as (c & -> & Hc). apply low_in in Hk. change (lit "|") with [124%Z]. change (lit "]") with [93%Z]. rewrite <- ?app_assoc. cbn [app].
    destruct X2 as [X1' X3]; [lia|reflexivity|]. assert (L := shown_trails e m S X1' X3). assert (Bg := shown_begins e m S). destruct (row_A s A f SP i Li Ri) as (x' & a' & ? & _ & G' & Ra' & Va). rewrite G in G'. injection G' as <-. rewrite Ra in Ra'. injection Ra' as <-.
    rewrite (read_text s A f _ (mid_D2 i j m) (WBin BMat (row_of 10216 WEps i) (open_begin_of m j 93))).
    + rewrite (prod_of _ _ _ _ _ Va (begin_S j e m y b w ltac:(lia) S G2 Rb Em)). unfold vdot, vm, mv. cbn [e0 e1]. do 3 f_equal. ring.
    + unfold angle, low in *. destruct Hc as [-> | ->], Hk as [-> | ->]; smalls.
    + mark k c.
    + apply front_D2; assumption || lia.
    + apply tree_D2; assumption || lia.
  - rewrite <- !app_assoc. destruct (chain_angle s A f SP i j k l e m p Hp Hk Hl S E Hi Hj) as (v & Q' & V). rewrite Q in Q'. injection Q' as <-. rewrite V. do 3 f_equal. ring.
Qed.
Theorem ends_square i i' t j j' u e m q : barred s -> angle_close q -> end_text upper i i' t -> end_text lower j j' u -> shows_entry e m -> legs_in s e -> end_in s i i' -> end_in s j j' -> mixed_ok i i' j j' e m -> (i = i' -> j = j' -> q = CAng) ->
  (i <> i' -> j <> j' -> (i <= 8)%Z) ->
  exists v, compute s (IChain OSq i' [e] j' CAng) = Ok (VS v) /\
    compute_wide (S (S f)) s A (lit "[" ++ t ++ lit "|" ++ m ++ lit "|" ++ u ++ closing q) = Ok (XNum (VElt (spin_sign i i' * v))).
Proof.
  intros Bar Hq Et Eu S E Hi Hj [X1 X2] X0 I8. destruct (ends_in s _ _ _ _ Et Hi) as [Ri Li], (ends_in s _ _ _ _ Eu Hj) as [Rj Lj]. assert (B := shown_between e m S).
  destruct (entry_val_ok s SP false e E) as (w & Ew). assert (Em : middle false s [e] = Ok w) by (cbn [middle]; rewrite Ew; reflexivity).
  destruct (four_of s SP i' Ri) as (x & ? & ? & ? & a & G & _ & _ & _ & Ra), (four_of s SP j' Rj) as (y & ? & b & ? & ? & G2 & _ & Rb & _).
  assert (Q : compute s (IChain OSq i' [e] j' CAng) = Ok (VS (vdot (vm a w) b))).
  { cbn [compute]. unfold c_chain. cbn [negb bracket_ok length Nat.even]. rewrite G. cbn [rbind]. rewrite Em. cbn [rbind]. rewrite Ra. cbn [need_r rbind]. rewrite G2. cbn [rbind]. rewrite Rb. reflexivity. }
  exists (vdot (vm a w) b). split; [exact Q|]. destruct Et as [|k Hk], Eu as [|l Hl]; rewrite ?spin_same, ?spin_next.
  - assert (W := w_chain OSq i [e] m j CAng ltac:(lia) ltac:(lia) (last_entry e m S)). assert (V := wide_shows s A (Datatypes.S f) _ _ _ W Q).
    replace (1 * vdot (vm a w) b) with (vdot (vm a w) b) by (unfold vdot; ring). rewrite X0 by reflexivity. exact V.
  - destruct (closing_angle q Hq) as (c & -> & Hc). apply low_in in Hl. change (lit "|") with [124%Z]. change (lit "[") with [91%Z]. rewrite <- ?app_assoc. cbn [app].
    destruct X1 as [X1 X3]; [reflexivity|lia|]. assert (L := shown_leads e m S X1 X3). destruct (col_A s A f SP j Lj Rj) as (y' & b' & G2' & Rb' & Vb). rewrite G2 in G2'. injection G2' as <-. rewrite Rb in Rb'. injection Rb' as <-.
    rewrite (read_text s A f _ (mid_D4 i j m) (WBin BMat (open_end_of 91 i m) (col_of (WNeg WEps) j 10217))).
    + rewrite (prod_of _ _ _ _ _ (end_S i e m x a w ltac:(lia) S G Ra Em) Vb). unfold vdot. cbn [e0 e1]. do 3 f_equal. ring.
    + unfold shut, low in *. destruct Hc as [-> | ->], Hl as [-> | ->]; smalls.
    + apply (class_shut _ l c); [ins|ins| |]; cbn; unfold shut, low in *; lia.
    + apply front_D4; assumption || lia.
    + apply tree_D4; assumption || lia.
  - destruct (closing_angle q Hq) as (c & -> & Hc). apply up_in in Hk. change (lit "|") with [124%Z]. change (lit "[") with [91%Z]. rewrite <- ?app_assoc. cbn [app].
    destruct X2 as [X1' X3]; [lia|reflexivity|]. assert (L := shown_trails e m S X1' X3). assert (Bg := shown_begins e m S). destruct (row_S s A f SP i Li Ri) as (x' & a' & ? & _ & G' & Ra' & Va). rewrite G in G'. injection G' as <-. rewrite Ra in Ra'. injection Ra' as <-.
    rewrite (read_text s A f _ (mid_D3 i j m) (WBin BMat (row_of 91 (WNeg WEps) i) (open_begin_of m j 10217))).
    + rewrite (prod_of _ _ _ _ _ Va (begin_A j e m y b w ltac:(lia) S G2 Rb Em)). unfold minus, vdot, vm, mv. cbn [e0 e1]. do 3 f_equal. ring.
    + unfold shut, up in *. destruct Hc as [-> | ->], Hk as [-> | ->]; smalls.
    + mark k 91%Z.
    + apply front_D3; assumption || lia.
    + apply tree_D3; assumption || lia.
  - rewrite <- !app_assoc. destruct (chain_square s A f SP i j k l e m q Bar Hq Hk Hl S E Hi Hj ltac:(apply I8; lia)) as (v & Q' & V). rewrite Q in Q'. injection Q' as <-. rewrite V. do 3 f_equal. ring.
Qed.
End Ends.
Section Reversed.
Context {K : Fld}.
Theorem ends_reversed (s : ps K) A f i i' t j j' u e m p q : spinors_all s -> Forall (fun p => consistent p) s -> angle_open p -> angle_close q -> end_text lower i i' t -> end_text upper j j' u -> shows_entry e m -> legs_in s e ->
  end_in s i i' -> end_in s j j' -> mixed_ok i i' j j' e m -> mixed_ok j j' i i' e m -> (i = i' -> j = j' -> p = OAng /\ q = CAng) -> (i <> i' -> j <> j' -> j <= 8) ->
  exists v, compute_wide (S (S f)) s A (opening p ++ t ++ lit "|" ++ m ++ lit "|" ++ u ++ lit "]") = Ok (XNum (VElt v)) /\
    compute_wide (S (S f)) s A (lit "[" ++ u ++ lit "|" ++ m ++ lit "|" ++ t ++ closing q) = Ok (XNum (VElt v)).
Proof.
  intros SP C Hp Hq Et Eu S E Hi Hj X Y X0 J8.
  destruct (ends_angle s A f SP i i' t j j' u e m p Hp Et Eu S E Hi Hj X) as (v & E1 & V1); [intros H1 H2; apply X0; assumption|].
  destruct (ends_square s A f SP j j' u i i' t e m q (consistent_barred s C) Hq Eu Et S E Hj Hi Y) as (w & E2 & V2); [intros H1 H2; apply X0; assumption|intros H1 H2; apply J8; assumption|].
  apply (chain_reversed s _ _ _ _ C) in E1. rewrite E1 in E2. injection E2 as <-. eauto.
Qed.
End Reversed.
