(* The values of sums of products of brackets with massive spinors. *)
From Coq Require Import Ascii String.
From Coq Require Import List ZArith Bool Lia Field.
From Verif Require Import Base Fld Particle Index Phase Compute Str Regex RegexThm Masses MassesThm Parse ParseChars ParseVary Text TextSpec TextThm TextThm4 TextThm6 TextThm7 Tensor TensorThm TensorText TensorTree TensorSpec TensorEval TensorSum TensorSumText TensorSumTree TensorSumSpec.
Import ListNotations.
Open Scope Z_scope.
Open Scope res_scope.

Section Values.
Context {K : Fld}.
Add Field Kfsum : (fth K).
Open Scope fld_scope.
Section Node.
Variable o : pystr -> result (wval K).
(* the value of one bracket *)
Definition worth (x : item) (v : K) : Prop :=
  if massive x then exists a b, weval o (t_left x) = Ok (arow a) /\ weval o (t_right x) = Ok (acol b) /\ v = e0 a * e0 b + e1 a * e1 b
  else o (two_text x) = Ok (XNum (VElt v)).
(* a number, or an array with one entry *)
Definition scalar (w : wval K) (v : K) : Prop := w = XNum (VElt v) \/ w = XArr [[VElt v]].
Lemma first_value x v : worth x v -> exists w, weval o (t_first x) = Ok w /\ scalar w v.
Proof.
  unfold worth, t_first. destruct (massive x).
  - intros (a & b & A & B & ->). eexists. split; [cbn [weval]; rewrite A, B; reflexivity|]. right. reflexivity.
  - intros E. eexists. split; [exact E|]. left. reflexivity.
Qed.
Lemma times_value T w u x v : weval o T = Ok w -> scalar w u -> worth x v -> exists w', weval o (t_times T x) = Ok w' /\ scalar w' (u * v).
Proof.
  unfold worth, t_times. intros E S. destruct (massive x).
  - intros (a & b & A & B & ->). destruct S as [-> | ->]; (eexists; split; [cbn [weval]; rewrite E, A, B; reflexivity|right; cbn; f_equal; f_equal; f_equal; f_equal; ring]).
  - intros A. destruct S as [-> | ->]; (eexists; split; [cbn [weval]; rewrite E, A; reflexivity|]); [left|right]; reflexivity.
Qed.
Lemma fold_value its : forall vs T w u, weval o T = Ok w -> scalar w u -> Forall2 worth its vs -> exists w', weval o (fold_left t_times its T) = Ok w' /\ scalar w' (fold_left fmul vs u).
Proof.
  induction its as [|x its IH]; intros vs T w u E S F; inversion F; subst; [exists w; auto|]. cbn [fold_left]. destruct (times_value T w u x y E S) as (w' & E' & S'); [assumption|]. eapply IH; eassumption.
Qed.
Definition term_worth (y : term) (v : K) : Prop := exists u vs, worth (fst y) u /\ Forall2 worth (snd y) vs /\ v = fold_left fmul vs u.
Lemma term_value y v : term_worth y v -> exists w, weval o (t_term (fst y) (snd y)) = Ok w /\ scalar w v.
Proof. intros (u & vs & A & B & ->). destruct (first_value _ _ A) as (w & E & S). eapply fold_value; eassumption. Qed.
Definition plus (v : K) (y : Z * K) : K := if (fst y =? 43)%Z then v + snd y else v - snd y.
Lemma plus_value T w u y (v : K) : weval o T = Ok w -> scalar w u -> is_pm (fst y) -> term_worth (snd y) v -> exists w', weval o (t_plus T y) = Ok w' /\ scalar w' (plus u (fst y, v)).
Proof.
  intros E S P H. destruct (term_value _ _ H) as (w' & E' & S'). unfold t_plus, plus. cbn [fst snd].
  destruct P as [-> | ->]; cbn [Z.eqb Pos.eqb]; destruct S as [-> | ->], S' as [-> | ->]; (eexists; split; [cbn [weval]; rewrite E, E'; reflexivity|]); first [left; reflexivity | right; reflexivity].
Qed.
Definition sum_worth (y : term) (l : list (Z * term)) (v : K) : Prop := exists u vs, term_worth y u /\ Forall2 (fun a b => fst a = fst b /\ term_worth (snd a) (snd b)) l vs /\ v = fold_left plus vs u.
Lemma sums_value l : pms l -> forall vs T w u, weval o T = Ok w -> scalar w u -> Forall2 (fun a b => fst a = fst b /\ term_worth (snd a) (snd b)) l vs ->
  rmap pop (weval o (fold_left t_plus l T)) = Ok (XNum (VElt (fold_left plus vs u))).
Proof.
  induction 1 as [|[c z] l P1 P IH]; intros vs T w u E S B; inversion B as [|? [c' z'] ? ? [H1 H2] B']; subst.
  - cbn [fold_left]. rewrite E. destruct S as [-> | ->]; reflexivity.
  - cbn [fold_left fst snd] in *. subst c'. destruct (plus_value T w u (c, z) z' E S P1 H2) as (w' & E' & S'). eapply IH; eassumption.
Qed.
Lemma sum_value y l v : pms l -> sum_worth y l v -> rmap pop (weval o (t_sum y l)) = Ok (XNum (VElt v)).
Proof. intros P (u & vs & A & B & ->). destruct (term_value _ _ A) as (w & E & S). eapply sums_value; eassumption. Qed.
End Node.
End Values.

(* ---- from texts to brackets ---- *)
Lemma raw_app x r r' : raw x (r ++ r') = raw x r ++ r'.
Proof. unfold raw, early. destruct x as [[|] [|] [|] i j k l]; cbn [i_sq i_lm i_rm i_i i_j i_k i_l]; repeat (cbn [app]; rewrite <- ?app_assoc); reflexivity. Qed.
Lemma tail_raw u v : tail_text raw (u ++ v) = tail_text raw u ++ tail_text raw v.
Proof. induction u as [|[o x] u IH]; [reflexivity|]. cbn [app tail_text]. rewrite IH, raw_app. reflexivity. Qed.
Lemma norm_app u v : norm (u ++ v) = norm u ++ norm v.
Proof. unfold norm. rewrite map_app. induction (map conv u) as [|c w IH]; [reflexivity|]. cbn [app filter]. destruct (negb _); [cbn [app]; f_equal|]; exact IH. Qed.
Lemma flat_app u v : flat (u ++ v) = flat u ++ flat v.
Proof. induction u as [|[o [x its]] u IH]; [reflexivity|]. cbn [app flat]. rewrite IH, app_assoc. reflexivity. Qed.
Lemma stars_app u v : by_stars (u ++ v) = by_stars u ++ by_stars v. Proof. unfold by_stars. apply map_app. Qed.
Definition telling (t : pystr) : Prop := exists a b, In a t /\ In b t /\ In a [94; 117; 95; 100] /\ In b [10216; 60; 91] /\ (a = 95 -> b <> 91).
Lemma telling_l t u : telling t -> telling (t ++ u). Proof. intros (a & b & I & J & H). exists a, b. split; [apply in_or_app; auto|]. split; [apply in_or_app; auto|exact H]. Qed.
Lemma telling_r t u : telling u -> telling (t ++ u). Proof. intros (a & b & I & J & H). exists a, b. split; [apply in_or_app; auto|]. split; [apply in_or_app; auto|exact H]. Qed.
Lemma given_small u : only given' u -> forall c, In c u -> c < 120782.
Proof. intros O c I. destruct (O c I) as [D|D]; [apply is_digit_iff in D; lia|]. unfold Parse.cls in D. apply existsb_exists in D. destruct D as (d & D & E). apply Z.eqb_eq in E. subst d. revert D. unfold given', given. cbn [In]. lia. Qed.
(* a text with the bracket it stands for *)
Definition reads (m : bool) (t : pystr) (x : item) : Prop := item_ok x /\ massive x = m /\ norm t = raw x [] /\ only given' t /\ (m = true -> telling t).
Lemma char_marks (sq : bool) k : In k (if sq then upper else lower) -> In k (marks sq). Proof. destruct sq; cbn; lia. Qed.
Ltac ins := repeat first [left; reflexivity | right | apply in_app_iff; right].
Ltac chars := repeat first [exact (only_nil _) | apply only_app; [apply only_dec; lia|] | apply only_cons; [reflexivity|]].
Ltac norms := repeat first [rewrite norm_cons; cbn -[norm dec] | rewrite norm_dec by lia | rewrite norm_nil].
Ltac reading :=
  split; [repeat split; cbn; lia|split; [reflexivity|split; [unfold raw, early; cbn -[norm dec]; repeat (cbn -[norm dec]; rewrite <- ?app_assoc); norms; reflexivity|split; [repeat (cbn [app]; rewrite <- ?app_assoc); chars|]]]].
Ltac tells k c := intros _; exists k, c; repeat split; [cbn [app]; ins|cbn [app]; ins|cbn; lia|cbn; lia|lia].
Lemma angle_reads lm rm i k j l c d : 0 <= i -> 0 <= j -> In k lower -> In l lower -> angle c -> shut d ->
  reads (lm || rm) ([c] ++ (dec i ++ (if lm then [k] else [])) ++ [124] ++ (dec j ++ (if rm then [l] else [])) ++ [d]) (It false lm rm i j k l).
Proof.
  intros Hi Hj Hk Hl Hc Hd. unfold angle, shut in *. cbn in Hk, Hl. destruct Hk as [<-|[<-|[]]], Hl as [<-|[<-|[]]], Hc as [-> | ->], Hd as [-> | ->]; destruct lm, rm; reading.
  all: try (intros E; discriminate E).
  all: repeat (cbn [app]; rewrite <- ?app_assoc).
  all: match goal with |- _ -> telling (?c :: dec _ ++ ?k :: ?r) => first [solve [tells 95%Z c] | solve [tells 100%Z c]] | _ => idtac end.
Qed.
Lemma square_reads lm rm i k j l : 0 <= i -> 0 <= j -> In k upper -> In l upper ->
  reads (lm || rm) ([91] ++ (dec i ++ (if lm then [k] else [])) ++ [124] ++ (dec j ++ (if rm then [l] else [])) ++ [93]) (It true lm rm i j k l).
Proof.
  intros Hi Hj Hk Hl. cbn in Hk, Hl. destruct Hk as [<-|[<-|[]]], Hl as [<-|[<-|[]]]; destruct lm, rm; reading.
  all: try (intros E; discriminate E).
  all: repeat (cbn [app]; rewrite <- ?app_assoc).
  all: first [solve [tells 94%Z 91%Z] | solve [tells 117%Z 91%Z]].
Qed.
Section Point.
Context {K : Fld}.
Add Field Kfsum2 : (fth K).
Variables (s : ps K) (A : dict (@mval K)) (f : nat).
Hypothesis SP : spinors_all s.
Notation o := (compute_wide (S f) s A).
Lemma end_shape marks i i' t : end_text marks i i' t -> exists m k, (m = true -> In k marks) /\ t = dec i ++ (if m then [k] else []) /\ i' = i + Z.b2z m /\ m = negb (i =? i').
Proof.
  intros [|k H].
  - exists false, 0. rewrite Z.eqb_refl, app_nil_r. repeat split; cbn; (discriminate || lia).
  - exists true, k. rewrite (proj2 (Z.eqb_neq _ _)) by lia. auto.
Qed.
Lemma some_mark (marks : pystr) d (m : bool) k : In d marks -> (m = true -> In k marks) -> exists k', In k' marks /\ (if m then [k] else []) = (if m then [k'] else []).
Proof. intros D H. destruct m; [exists k; auto|exists d; auto]. Qed.
Lemma row_of_A (m : bool) i : 1 <= i -> inr s (i + Z.b2z m) -> exists p a, getitem s (i + Z.b2z m) = Ok p /\ r_u p = Some a /\ weval o (if m then row_of 10216 (eps_of false) i else bra_of 10216 i) = Ok (arow a).
Proof.
  intros L R. destruct m; cbn [Z.b2z eps_of] in *; [|rewrite Z.add_0_r in *; apply bra_A; assumption]. destruct (row_A s A f SP i L R) as (p & a & b & _ & H). exists p, a. exact H.
Qed.
Lemma col_of_A (m : bool) i : 1 <= i -> inr s (i + Z.b2z m) -> exists p a, getitem s (i + Z.b2z m) = Ok p /\ r_d p = Some a /\ weval o (if m then col_of (eps_of true) i 10217 else ket_of i 10217) = Ok (acol a).
Proof.
  intros L R. destruct m; cbn [Z.b2z eps_of] in *; [|rewrite Z.add_0_r in *; apply ket_A; assumption]. exact (col_A s A f SP i L R).
Qed.
Lemma row_of_S (m : bool) i : 1 <= i -> inr s (i + Z.b2z m) -> exists p a, getitem s (i + Z.b2z m) = Ok p /\ l_d p = Some a /\ weval o (if m then row_of 91 (eps_of true) i else bra_of 91 i) = Ok (arow (if m then minus a else a)).
Proof.
  intros L R. destruct m; cbn [Z.b2z eps_of] in *; [|rewrite Z.add_0_r in *; apply bra_S; assumption]. destruct (row_S s A f SP i L R) as (p & a & b & _ & H). exists p, a. exact H.
Qed.
Lemma col_of_S (m : bool) i : 1 <= i -> inr s (i + Z.b2z m) -> exists p a, getitem s (i + Z.b2z m) = Ok p /\ l_u p = Some a /\ weval o (if m then col_of (eps_of false) i 93 else ket_of i 93) = Ok (acol (if m then minus a else a)).
Proof.
  intros L R. destruct m; cbn [Z.b2z eps_of] in *; [|rewrite Z.add_0_r in *; apply ket_S; assumption]. exact (col_S s A f SP i L R).
Qed.
Lemma sign_of (m : bool) i : spin_sign (K := K) i (i + Z.b2z m) = (if m then fopp f1 else f1).
Proof. destruct m; [apply spin_next|]. cbn [Z.b2z]. rewrite Z.add_0_r. apply spin_same. Qed.
Lemma bracket_item m t v : bracket s m t v -> exists x, reads m t x /\ worth o x v.
Proof.
  intros [i i' t1 j j' u p q w Hp Hq Et Eu Hi Hj E | i i' t1 j j' u w Et Eu Hi Hj E]; destruct (ends_in _ _ _ _ _ Et Hi) as [Ri Li], (ends_in _ _ _ _ _ Eu Hj) as [Rj Lj];
    destruct (end_shape _ _ _ _ Et) as (ml & k & Hk & -> & -> & Ml), (end_shape _ _ _ _ Eu) as (mr & l & Hl & -> & -> & Mr); rewrite andb_comm, negb_andb, orb_comm, <- Ml, <- Mr; clear Ml Mr Et Eu.
  - destruct (some_mark lower 95 ml k ltac:(cbn; lia) Hk) as (k' & Ik & ->), (some_mark lower 95 mr l ltac:(cbn; lia) Hl) as (l' & Il & ->). destruct (opening_angle p Hp) as (c & -> & Hc), (closing_angle q Hq) as (d & -> & Hd).
    exists (It false ml mr i j k' l'). split; [apply angle_reads; assumption || lia|]. unfold worth.
    destruct (row_of_A ml i Li Ri) as (P & a & G & Ra & Va), (col_of_A mr j Lj Rj) as (Q & b & G2 & Rb & Vb).
    assert (W : Ok (VS (vdot a b)) = Ok (VS w)) by (rewrite <- E; cbn [compute]; unfold c_A2; rewrite G, G2; cbn; rewrite Ra, Rb; reflexivity). injection W as W.
    unfold massive, t_left, t_right. cbn [i_lm i_rm i_sq i_i i_j bra_c ket_c negb]. destruct (ml || mr) eqn:M.
    + exists a, b. auto.
    + apply orb_false_iff in M. destruct M as [-> ->]. cbn [Z.b2z] in E. rewrite !Z.add_0_r in E. exact (wide_shows s A f _ _ _ (w_A2 i j OAng CAng ltac:(lia) ltac:(lia) (or_introl eq_refl) (or_introl eq_refl)) E).
  - destruct (some_mark upper 94 ml k ltac:(cbn; lia) Hk) as (k' & Ik & ->), (some_mark upper 94 mr l ltac:(cbn; lia) Hl) as (l' & Il & ->). rewrite !sign_of.
    exists (It true ml mr i j k' l'). split; [apply square_reads; assumption || lia|]. unfold worth.
    destruct (row_of_S ml i Li Ri) as (P & a & G & Ra & Va), (col_of_S mr j Lj Rj) as (Q & b & G2 & Rb & Vb).
    assert (W : Ok (VS (vdot a b)) = Ok (VS w)) by (rewrite <- E; cbn [compute]; unfold c_S2; rewrite G, G2; cbn; rewrite Ra, Rb; reflexivity). injection W as W.
    unfold massive, t_left, t_right. cbn [i_lm i_rm i_sq i_i i_j bra_c ket_c negb]. destruct (ml || mr) eqn:M.
    + eexists _, _. split; [exact Va|]. split; [exact Vb|]. rewrite <- W. unfold vdot. destruct ml, mr; unfold minus; cbn [e0 e1]; try discriminate M; ring.
    + apply orb_false_iff in M. destruct M as [-> ->]. cbn [Z.b2z] in E. rewrite !Z.add_0_r in E. replace (f1 * f1 * w)%fld with w by ring. exact (wide_shows s A f _ _ _ (w_S2 i j ltac:(lia) ltac:(lia)) E).
Qed.
(* products *)
Definition has (m : bool) (t : pystr) (its : list item) : Prop := Forall item_ok its /\ only given' t /\ (m = true -> telling t /\ exists x, In x its /\ massive x = true).
Lemma has_app m t its m' u its' c : Parse.cls given' c = true -> has m t its -> has m' u its' -> has (m || m') (t ++ [c] ++ u) (its ++ its').
Proof.
  intros C (F & O & T) (F' & O' & T'). split; [apply Forall_app; auto|]. split; [apply only_app; [exact O|]; apply only_cons; [rewrite C; apply orb_true_r|exact O']|]. intros M. destruct m.
  - destruct (T eq_refl) as (T1 & x & I & X). split; [apply telling_l, T1|]. exists x. split; [apply in_or_app; auto|exact X].
  - destruct (T' M) as (T1 & x & I & X). split; [apply telling_r, telling_r, T1|]. exists x. split; [apply in_or_app; auto|exact X].
Qed.
Lemma reads_has m t x : reads m t x -> has m t [x].
Proof. intros (K1 & K2 & _ & O & T). split; [auto|]. split; [exact O|]. intros M. split; [apply T, M|]. exists x. split; [left; reflexivity|congruence]. Qed.
Lemma product_term m t v : product s m t v -> exists y, has m t (items_of y) /\ norm t = all_text raw (fst y) (by_stars (snd y)) /\ term_worth o y v.
Proof.
  induction 1 as [m t v B | m t v m' u w _ IH B].
  - destruct (bracket_item m t v B) as (x & R & W). exists (x, []). split; [apply reads_has, R|]. split; [apply R|]. exists v, []. repeat split; [exact W|constructor].
  - destruct IH as ([x its] & H & N & u0 & vs & W1 & W2 & ->), (bracket_item m' u w B) as (x' & R & W). exists (x, its ++ [x']). cbn [fst snd] in *. split; [exact (has_app _ _ _ _ _ _ 42 eq_refl H (reads_has _ _ _ R))|]. split.
    + change (lit "*") with [42]. rewrite !norm_app, N, stars_app. unfold all_text. rewrite tail_raw, raw_app. change (norm [42]) with [42]. destruct R as (_ & _ & -> & _). reflexivity.
    + exists u0, (vs ++ [w]). split; [exact W1|]. split; [apply Forall2_app; [exact W2|constructor; [exact W|constructor]]|]. rewrite fold_left_app. reflexivity.
Qed.
Lemma total_sum m t v : total s m t v -> exists y l, has m t (all_items y l) /\ pms l /\ norm t = all_text raw (fst y) (by_stars (snd y) ++ flat l) /\ sum_worth o y l v.
Proof.
  assert (J : forall m t v m' u w c, is_pm c -> (exists y l, has m t (all_items y l) /\ pms l /\ norm t = all_text raw (fst y) (by_stars (snd y) ++ flat l) /\ sum_worth o y l v) -> product s m' u w ->
    exists y l, has (m || m') (t ++ [c] ++ u) (all_items y l) /\ pms l /\ norm (t ++ [c] ++ u) = all_text raw (fst y) (by_stars (snd y) ++ flat l) /\ sum_worth o y l (plus v (c, w))).
  { intros m1 t1 v1 m' u w c C (y & l & H & P & N & u0 & vs & W1 & W2 & ->) B. destruct (product_term _ _ _ B) as (z & H' & N' & W'). exists y, (l ++ [(c, z)]). split.
    - unfold all_items. rewrite map_app, concat_app, (app_assoc (items_of y)). cbn [map concat snd]. rewrite app_nil_r. apply has_app; [destruct C as [-> | ->]; reflexivity|exact H|exact H'].
    - split; [apply Forall_app; split; [exact P|constructor; [exact C|constructor]]|]. split.
      + rewrite !norm_app, N, N', flat_app, (app_assoc (by_stars (snd y))). unfold all_text. rewrite (tail_raw (by_stars (snd y) ++ flat l) (flat [(c, z)])), raw_app. f_equal. destruct z as [x its]. cbn [flat tail_text fst snd]. rewrite app_nil_r. destruct C as [-> | ->]; reflexivity.
      + exists u0, (vs ++ [(c, w)]). split; [exact W1|]. split; [apply Forall2_app; [exact W2|constructor; [split; [reflexivity|exact W']|constructor]]|]. rewrite fold_left_app. reflexivity. }
  induction 1 as [m t v B | m t v m' u w _ IH B | m t v m' u w _ IH B].
  - destruct (product_term _ _ _ B) as (y & H & N & W). exists y, []. split; [unfold all_items; cbn [map concat]; rewrite app_nil_r; exact H|]. split; [constructor|]. split; [cbn [flat]; rewrite app_nil_r; exact N|]. exists v, []. repeat split; [exact W|constructor].
  - exact (J _ _ _ _ _ _ 43 (or_introl eq_refl) IH B).
  - exact (J _ _ _ _ _ _ 45 (or_intror eq_refl) IH B).
Qed.
Theorem total_value t v : total s true t v -> compute_wide (S (S f)) s A t = Ok (XNum (VElt v)).
Proof.
  intros T. destruct (total_sum _ _ _ T) as (y & l & (F & O & M) & P & N & W). destruct (M eq_refl) as ((a & b & I & J & Ha & Hb & Hab) & X).
  assert (G : sum_ok y l) by (split; assumption). destruct (flat_ok y l G) as [G1 G2].
  erewrite read_text; [apply sum_value; [exact P|exact W]|apply given_small, O|exact (class_mark t a b I J Ha Hb Hab)|apply front_sum; [exact G1|exact G2|exact O|exact N]|apply parse_sum; assumption].
Qed.
End Point.
