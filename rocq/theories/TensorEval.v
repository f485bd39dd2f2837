(* The values of brackets with massive spinors. *)
From Coq Require Import Ascii String.
From Coq Require Import List ZArith Bool Lia Field.
From Verif Require Import Base Fld Particle Index Phase Compute Str Regex RegexThm Masses MassesThm Parse ParseChars Text TextSpec TextThm TextThm4 TextThm6 TextThm7 Tensor TensorThm TensorText TensorTree TensorSpec.
Import ListNotations.
Open Scope Z_scope.
Open Scope res_scope.

(* a text with an index and a bracket is not the text of an invariant *)
Lemma class_mark u x y : In x u -> In y u -> In x [94; 117; 95; 100] -> In y [10216; 60; 91] -> (x = 95 -> y <> 91) -> classify u = TExpr.
Proof.
  intros I J Hx Hy N. assert (x = 95 /\ y = 91 \/ ~ (x = 95 /\ y = 91)) as [[-> ->]|_] by lia; [exfalso; apply N; reflexivity|]. unfold classify. cbn in Hx, Hy.
  repeat (destruct Hx as [<-|Hx]; [repeat (destruct Hy as [<-|Hy]; [first [exfalso; apply N; reflexivity | repeat match goal with |- context [search ?r u] => first [rewrite (fun H => no_char r u _ H I) by reflexivity | rewrite (fun H => no_char r u _ H J) by reflexivity] end; reflexivity]|]); destruct Hy|]); destruct Hx.
Qed.

Section Eval.
Context {K : Fld}.
Add Field Kften : (fth K).
Implicit Types (s : ps K).
Open Scope fld_scope.
Definition arow (v : v2 K) : wval K := XArr [[VElt (e0 v); VElt (e1 v)]].
Definition acol (v : v2 K) : wval K := XArr [[VElt (e0 v)]; [VElt (e1 v)]].
Definition minus (v : v2 K) : v2 K := V2 (- e0 v) (- e1 v).
Section Node.
Variable o : pystr -> result (wval K).
Ltac entries := cbn -[fadd fmul fopp f0 f1]; change (Pos.to_nat 1) with 1%nat; cbn -[fadd fmul fopp f0 f1]; unfold arow, acol, minus; cbn [e0 e1]; repeat (f_equal; try reflexivity); try ring.
Lemma row_plus c i a b : o (c :: dec i ++ [124%Z]) = Ok (arow a) -> o (c :: dec (i + 1)%Z ++ [124%Z]) = Ok (arow b) -> weval o (row_of c WEps i) = Ok (arow b).
Proof. intros A B. unfold row_of, bra_of. cbn [weval]. rewrite A, B. destruct a, b. entries. Qed.
Lemma row_minus c i a b : o (c :: dec i ++ [124%Z]) = Ok (arow a) -> o (c :: dec (i + 1)%Z ++ [124%Z]) = Ok (arow b) -> weval o (row_of c (WNeg WEps) i) = Ok (arow (minus b)).
Proof. intros A B. unfold row_of, bra_of. cbn [weval]. rewrite A, B. destruct a, b. entries. Qed.
Lemma col_plus c j a b : o (124%Z :: dec j ++ [c]) = Ok (acol a) -> o (124%Z :: dec (j + 1)%Z ++ [c]) = Ok (acol b) -> weval o (col_of (WNeg WEps) j c) = Ok (acol b).
Proof. intros A B. unfold col_of, ket_of. cbn [weval]. rewrite A, B. destruct a, b. entries. Qed.
Lemma col_minus c j a b : o (124%Z :: dec j ++ [c]) = Ok (acol a) -> o (124%Z :: dec (j + 1)%Z ++ [c]) = Ok (acol b) -> weval o (col_of WEps j c) = Ok (acol (minus b)).
Proof. intros A B. unfold col_of, ket_of. cbn [weval]. rewrite A, B. destruct a, b. entries. Qed.
Lemma prod_of L R a b : weval o L = Ok (arow a) -> weval o R = Ok (acol b) -> rmap pop (weval o (WBin BMat L R)) = Ok (XNum (VElt (e0 a * e0 b + e1 a * e1 b))).
Proof. intros A B. cbn [weval]. rewrite A, B. reflexivity. Qed.
End Node.

Lemma wide_step s A f t : (forall c, In c t -> (c < 120782)%Z) -> classify t = TExpr -> compute_wide (S f) s A t = weval_text (compute_wide f s A) t.
Proof. intros U C. cbn [compute_wide]. rewrite unbold_map, thin_id by exact U. cbn [rbind]. rewrite C. reflexivity. Qed.
Lemma wide_shows s A f e t v : shows e t -> compute s e = Ok v -> compute_wide (S f) s A t = Ok (of_val v).
Proof. intros H E. apply (wide_same (S f) s A t (AVal v)). rewrite (compute_shows s A f e t t H); [rewrite E; reflexivity|]. clear. induction t; constructor; assumption. Qed.

Section Point.
Variables (s : ps K) (A : dict (@mval K)) (f : nat).
Hypothesis SP : spinors_all s.
Notation o := (compute_wide (S f) s A).
(* the four spinors of a leg *)
Lemma four_of i : inr s i -> exists p a b c d, getitem s i = Ok p /\ r_u p = Some a /\ r_d p = Some b /\ l_u p = Some c /\ l_d p = Some d.
Proof.
  intros R. destruct (leg_ok s SP i R) as (p & G & D). destruct (D RRow) as (a & Ha), (D RCol) as (b & Hb), (D LCol) as (c & Hc), (D LRow) as (d & Hd). exists p, a, b, c, d. auto.
Qed.
Lemma wide_Au i a : (0 <= i)%Z -> compute s (IAu i) = Ok (VRow a) -> o (10216%Z :: dec i ++ [124%Z]) = Ok (arow a).
Proof. intros H E. exact (wide_shows s A f _ _ _ (w_Au i OAng H (or_introl eq_refl)) E). Qed.
Lemma wide_Ad i a : (0 <= i)%Z -> compute s (IAd i) = Ok (VCol a) -> o (124%Z :: dec i ++ [10217%Z]) = Ok (acol a).
Proof. intros H E. exact (wide_shows s A f _ _ _ (w_Ad i CAng H (or_introl eq_refl)) E). Qed.
Lemma wide_Sd i a : (0 <= i)%Z -> compute s (ISd i) = Ok (VRow a) -> o (91%Z :: dec i ++ [124%Z]) = Ok (arow a).
Proof. intros H E. exact (wide_shows s A f _ _ _ (w_Sd i H) E). Qed.
Lemma wide_Su i a : (0 <= i)%Z -> compute s (ISu i) = Ok (VCol a) -> o (124%Z :: dec i ++ [93%Z]) = Ok (acol a).
Proof. intros H E. exact (wide_shows s A f _ _ _ (w_Su i H) E). Qed.
Lemma row_A i : (1 <= i)%Z -> inr s (i + 1) -> exists p a b, compute s (IAu i) = Ok (VRow b) /\ getitem s (i + 1) = Ok p /\ r_u p = Some a /\ weval o (row_of 10216 WEps i) = Ok (arow a).
Proof.
  unfold inr. intros H R. destruct (four_of i) as (q & b & ? & ? & ? & G & Rb & _); [unfold inr; lia|]. destruct (four_of (i + 1)) as (p & a & ? & ? & ? & G1 & Ra & _); [exact R|].
  assert (E : compute s (IAu i) = Ok (VRow b)) by (cbn; rewrite G; cbn; rewrite Rb; reflexivity). assert (E1 : compute s (IAu (i + 1)) = Ok (VRow a)) by (cbn; rewrite G1; cbn; rewrite Ra; reflexivity).
  exists p, a, b. repeat split; try assumption. apply (row_plus _ _ _ b a); apply wide_Au; assumption || lia.
Qed.
Lemma row_S i : (1 <= i)%Z -> inr s (i + 1) -> exists p a b, compute s (ISd i) = Ok (VRow b) /\ getitem s (i + 1) = Ok p /\ l_d p = Some a /\ weval o (row_of 91 (WNeg WEps) i) = Ok (arow (minus a)).
Proof.
  unfold inr. intros H R. destruct (four_of i) as (q & ? & ? & ? & b & G & _ & _ & _ & Rb); [unfold inr; lia|]. destruct (four_of (i + 1)) as (p & ? & ? & ? & a & G1 & _ & _ & _ & Ra); [exact R|].
  assert (E : compute s (ISd i) = Ok (VRow b)) by (cbn; rewrite G; cbn; rewrite Rb; reflexivity). assert (E1 : compute s (ISd (i + 1)) = Ok (VRow a)) by (cbn; rewrite G1; cbn; rewrite Ra; reflexivity).
  exists p, a, b. repeat split; try assumption. apply (row_minus _ _ _ b a); apply wide_Sd; assumption || lia.
Qed.
Lemma col_A i : (1 <= i)%Z -> inr s (i + 1) -> exists p a, getitem s (i + 1) = Ok p /\ r_d p = Some a /\ weval o (col_of (WNeg WEps) i 10217) = Ok (acol a).
Proof.
  unfold inr. intros H R. destruct (four_of i) as (q & ? & b & ? & ? & G & _ & Rb & _); [unfold inr; lia|]. destruct (four_of (i + 1)) as (p & ? & a & ? & ? & G1 & _ & Ra & _); [exact R|].
  assert (E : compute s (IAd i) = Ok (VCol b)) by (cbn; rewrite G; cbn; rewrite Rb; reflexivity). assert (E1 : compute s (IAd (i + 1)) = Ok (VCol a)) by (cbn; rewrite G1; cbn; rewrite Ra; reflexivity).
  exists p, a. repeat split; try assumption. apply (col_plus _ _ _ b a); apply wide_Ad; assumption || lia.
Qed.
Lemma col_S i : (1 <= i)%Z -> inr s (i + 1) -> exists p a, getitem s (i + 1) = Ok p /\ l_u p = Some a /\ weval o (col_of WEps i 93) = Ok (acol (minus a)).
Proof.
  unfold inr. intros H R. destruct (four_of i) as (q & ? & ? & b & ? & G & _ & _ & Rb & _); [unfold inr; lia|]. destruct (four_of (i + 1)) as (p & ? & ? & a & ? & G1 & _ & _ & Ra & _); [exact R|].
  assert (E : compute s (ISu i) = Ok (VCol b)) by (cbn; rewrite G; cbn; rewrite Rb; reflexivity). assert (E1 : compute s (ISu (i + 1)) = Ok (VCol a)) by (cbn; rewrite G1; cbn; rewrite Ra; reflexivity).
  exists p, a. repeat split; try assumption. apply (col_minus _ _ _ b a); apply wide_Su; assumption || lia.
Qed.
Lemma bra_A i : inr s i -> exists p a, getitem s i = Ok p /\ r_u p = Some a /\ weval o (bra_of 10216 i) = Ok (arow a).
Proof. intros R. destruct (four_of i R) as (p & a & ? & ? & ? & G & Ra & _). exists p, a. repeat split; try assumption. apply wide_Au; [unfold inr in R; lia|]. cbn. rewrite G. cbn. rewrite Ra. reflexivity. Qed.
Lemma ket_A i : inr s i -> exists p a, getitem s i = Ok p /\ r_d p = Some a /\ weval o (ket_of i 10217) = Ok (acol a).
Proof. intros R. destruct (four_of i R) as (p & ? & a & ? & ? & G & _ & Ra & _). exists p, a. repeat split; try assumption. apply wide_Ad; [unfold inr in R; lia|]. cbn. rewrite G. cbn. rewrite Ra. reflexivity. Qed.
Lemma bra_S i : inr s i -> exists p a, getitem s i = Ok p /\ l_d p = Some a /\ weval o (bra_of 91 i) = Ok (arow a).
Proof. intros R. destruct (four_of i R) as (p & ? & ? & ? & a & G & _ & _ & _ & Ra). exists p, a. repeat split; try assumption. apply wide_Sd; [unfold inr in R; lia|]. cbn. rewrite G. cbn. rewrite Ra. reflexivity. Qed.
Lemma ket_S i : inr s i -> exists p a, getitem s i = Ok p /\ l_u p = Some a /\ weval o (ket_of i 93) = Ok (acol a).
Proof. intros R. destruct (four_of i R) as (p & ? & ? & a & ? & G & _ & _ & Ra & _). exists p, a. repeat split; try assumption. apply wide_Su; [unfold inr in R; lia|]. cbn. rewrite G. cbn. rewrite Ra. reflexivity. Qed.
Lemma small_text c t : forallb (fun c => (c <? 120782)%Z) [c] = true -> (forall x, In x t -> (x < 120782)%Z) -> forall x, In x (c :: t) -> (x < 120782)%Z.
Proof. cbn. rewrite andb_true_r. intros E H x [<-|I]; [apply Z.ltb_lt, E|exact (H x I)]. Qed.
Lemma small_dec i t : (0 <= i)%Z -> (forall x, In x t -> (x < 120782)%Z) -> forall x, In x (dec i ++ t) -> (x < 120782)%Z.
Proof. intros Hi H x I. apply in_app_iff in I. destruct I as [I|I]; [apply (dec_in i x Hi) in I; lia|exact (H x I)]. Qed.
Ltac smalls := repeat first [apply small_text; [reflexivity|] | apply small_dec; [lia|] | intros ? []].
Ltac ins := repeat first [left; reflexivity | right | apply in_app_iff; right].
Lemma read_text t m T : (forall x, In x t -> (x < 120782)%Z) -> classify t = TExpr -> front t = m -> wast_parse (back m) = Ok T -> compute_wide (S (S f)) s A t = rmap pop (weval o T).
Proof. intros U C E P. rewrite wide_step by assumption. unfold weval_text. rewrite py_parse_split, E, P. reflexivity. Qed.
Lemma close_A i j p q a b T : getitem s i = Ok p -> getitem s j = Ok q -> r_u p = Some a -> r_d q = Some b -> rmap pop (weval o T) = Ok (XNum (VElt (e0 a * e0 b + e1 a * e1 b))) ->
  exists v, compute s (IA2 i j) = Ok (VS v) /\ rmap pop (weval o T) = Ok (XNum (VElt v)).
Proof. intros Gi Gj Ra Rb E. exists (vdot a b). split; [|exact E]. cbn [compute]. unfold c_A2. rewrite Gi, Gj. cbn. rewrite Ra, Rb. reflexivity. Qed.
Lemma close_S i j p q a b T : getitem s i = Ok p -> getitem s j = Ok q -> l_d p = Some a -> l_u q = Some b -> forall g v, rmap pop (weval o T) = Ok (XNum (VElt v)) -> v = g * (e0 a * e0 b + e1 a * e1 b) ->
  exists v, compute s (IS2 i j) = Ok (VS v) /\ rmap pop (weval o T) = Ok (XNum (VElt (g * v))).
Proof. intros Gi Gj Ra Rb g v E ->. exists (vdot a b). split; [|exact E]. cbn [compute]. unfold c_S2. rewrite Gi, Gj. cbn. rewrite Ra, Rb. reflexivity. Qed.
Lemma opening_angle q : angle_open q -> exists c, opening q = [c] /\ angle c. Proof. unfold angle. intros [-> | ->]; eexists; (split; [reflexivity|auto]). Qed.
Lemma closing_angle q : angle_close q -> exists c, closing q = [c] /\ shut c. Proof. unfold shut. intros [-> | ->]; eexists; (split; [reflexivity|auto]). Qed.
Lemma low_in k : In k lower -> low k. Proof. unfold low. cbn. lia. Qed.
Lemma up_in k : In k upper -> up k. Proof. unfold up. cbn. lia. Qed.
Ltac mark k c := apply (class_mark _ k c); [ins|left; reflexivity| | |]; cbn; unfold angle, low, up in *; lia.
Lemma ends_in i i' t marks : end_text marks i i' t -> end_in s i i' -> inr s i' /\ (1 <= i)%Z.
Proof. unfold end_in, inr, zlen. intros [|k] [H1 H2]; lia. Qed.
Theorem angle_two i i' t j j' u p q : angle_open p -> angle_close q -> end_text lower i i' t -> end_text lower j j' u -> end_in s i i' -> end_in s j j' ->
  exists v, compute s (IA2 i' j') = Ok (VS v) /\ compute_wide (S (S f)) s A (opening p ++ t ++ lit "|" ++ u ++ closing q) = Ok (XNum (VElt v)).
Proof.
  intros Hp Hq Et Eu Hi Hj. destruct (ends_in _ _ _ _ Et Hi) as [Ri Li], (ends_in _ _ _ _ Eu Hj) as [Rj Lj].
  assert (Wp := opening_angle p Hp). assert (Wq := closing_angle q Hq). destruct Et as [|k Hk], Eu as [|l Hl].
  - destruct (four_of i Ri) as (x & a & ? & ? & ? & G & Ra & _), (four_of j Rj) as (y & ? & b & ? & ? & G2 & _ & Rb & _). exists (vdot a b).
    assert (E : compute s (IA2 i j) = Ok (VS (vdot a b))) by (cbn [compute]; unfold c_A2; rewrite G, G2; cbn; rewrite Ra, Rb; reflexivity). split; [exact E|].
    exact (wide_shows s A (S f) _ _ _ (w_A2 i j p q ltac:(lia) ltac:(lia) Hp Hq) E).
  - destruct Wp as (c & -> & Hc), Wq as (d & -> & Hd). apply low_in in Hl. change (lit "|") with [124%Z]. rewrite <- !app_assoc. cbn [app].
    destruct (bra_A i Ri) as (x & a & G & Ra & Va), (col_A j Lj Rj) as (y & b & G2 & Rb & Vb).
    erewrite read_text; [| |mark l c|apply front_A2; assumption || lia|apply tree_A2; lia].
    + eapply close_A; try eassumption. exact (prod_of _ _ _ _ _ Va Vb).
    + unfold angle, shut, low in *; destruct Hc as [-> | ->], Hd as [-> | ->], Hl as [-> | ->]; smalls.
  - destruct Wp as (c & -> & Hc), Wq as (d & -> & Hd). apply low_in in Hk. change (lit "|") with [124%Z]. rewrite <- !app_assoc. cbn [app].
    destruct (row_A i Li Ri) as (x & a & ? & _ & G & Ra & Va), (ket_A j Rj) as (y & b & G2 & Rb & Vb).
    erewrite read_text; [| |mark k c|apply front_A1; assumption || lia|apply tree_A1; lia].
    + eapply close_A; try eassumption. exact (prod_of _ _ _ _ _ Va Vb).
    + unfold angle, shut, low in *; destruct Hc as [-> | ->], Hd as [-> | ->], Hk as [-> | ->]; smalls.
  - destruct Wp as (c & -> & Hc), Wq as (d & -> & Hd). apply low_in in Hk. apply low_in in Hl. change (lit "|") with [124%Z]. rewrite <- !app_assoc. cbn [app].
    destruct (row_A i Li Ri) as (x & a & ? & _ & G & Ra & Va), (col_A j Lj Rj) as (y & b & G2 & Rb & Vb).
    erewrite read_text; [| |mark k c|apply front_A3; assumption || lia|apply tree_A3; lia].
    + eapply close_A; try eassumption. exact (prod_of _ _ _ _ _ Va Vb).
    + unfold angle, shut, low in *; destruct Hc as [-> | ->], Hd as [-> | ->], Hk as [-> | ->], Hl as [-> | ->]; smalls.
Qed.
Lemma spin_same i : spin_sign (K := K) i i = 1. Proof. unfold spin_sign. rewrite Z.eqb_refl. reflexivity. Qed.
Lemma spin_next i : spin_sign (K := K) i (i + 1) = - (1). Proof. unfold spin_sign. rewrite (proj2 (Z.eqb_neq _ _)) by lia. reflexivity. Qed.
Theorem square_two i i' t j j' u : end_text upper i i' t -> end_text upper j j' u -> end_in s i i' -> end_in s j j' ->
  exists v, compute s (IS2 i' j') = Ok (VS v) /\ compute_wide (S (S f)) s A (lit "[" ++ t ++ lit "|" ++ u ++ lit "]") = Ok (XNum (VElt (spin_sign i i' * spin_sign j j' * v))).
Proof.
  intros Et Eu Hi Hj. destruct (ends_in _ _ _ _ Et Hi) as [Ri Li], (ends_in _ _ _ _ Eu Hj) as [Rj Lj].
  destruct Et as [|k Hk], Eu as [|l Hl]; rewrite ?spin_same, ?spin_next.
  - destruct (four_of i Ri) as (x & ? & ? & ? & a & G & _ & _ & _ & Ra), (four_of j Rj) as (y & ? & ? & b & ? & G2 & _ & _ & Rb & _). exists (vdot a b).
    assert (E : compute s (IS2 i j) = Ok (VS (vdot a b))) by (cbn [compute]; unfold c_S2; rewrite G, G2; cbn; rewrite Ra, Rb; reflexivity). split; [exact E|].
    replace (1 * 1 * vdot a b) with (vdot a b) by (unfold vdot; ring). exact (wide_shows s A (S f) _ _ _ (w_S2 i j ltac:(lia) ltac:(lia)) E).
  - apply up_in in Hl. change (lit "|") with [124%Z]. change (lit "[") with [91%Z]. change (lit "]") with [93%Z]. rewrite <- !app_assoc. cbn [app].
    destruct (bra_S i Ri) as (x & a & G & Ra & Va), (col_S j Lj Rj) as (y & b & G2 & Rb & Vb).
    erewrite read_text; [| |mark l 91%Z|apply front_B20; assumption || lia|apply tree_B2; lia].
    + eapply close_S; try eassumption; [exact (prod_of _ _ _ _ _ Va Vb)|]. unfold minus. cbn [e0 e1]. ring.
    + unfold up in *; destruct Hl as [-> | ->]; smalls.
  - apply up_in in Hk. change (lit "|") with [124%Z]. change (lit "[") with [91%Z]. change (lit "]") with [93%Z]. rewrite <- !app_assoc. cbn [app].
    destruct (row_S i Li Ri) as (x & a & ? & _ & G & Ra & Va), (ket_S j Rj) as (y & b & G2 & Rb & Vb).
    erewrite read_text; [| |mark k 91%Z|apply front_B10; assumption || lia|apply tree_B1; lia].
    + eapply close_S; try eassumption; [exact (prod_of _ _ _ _ _ Va Vb)|]. unfold minus. cbn [e0 e1]. ring.
    + unfold up in *; destruct Hk as [-> | ->]; smalls.
  - apply up_in in Hk. apply up_in in Hl. change (lit "|") with [124%Z]. change (lit "[") with [91%Z]. change (lit "]") with [93%Z]. rewrite <- !app_assoc. cbn [app].
    destruct (row_S i Li Ri) as (x & a & ? & _ & G & Ra & Va), (col_S j Lj Rj) as (y & b & G2 & Rb & Vb).
    erewrite read_text; [| |mark k 91%Z|apply front_B30; assumption || lia|apply tree_B3; lia].
    + eapply close_S; try eassumption; [exact (prod_of _ _ _ _ _ Va Vb)|]. unfold minus. cbn [e0 e1]. ring.
    + unfold up in *; destruct Hk as [-> | ->], Hl as [-> | ->]; smalls.
Qed.
End Point.
End Eval.
