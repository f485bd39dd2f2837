(* The values of sums of products of two-brackets and outer products. *)
From Coq Require Import Ascii String.
From Coq Require Import List ZArith Bool Lia Field.
From Verif Require Import Base Fld Particle ParticleSpec Index IndexThm Phase PhaseThm Compute ComputeSpec Str Regex RegexThm Masses MassesThm Parse ParseChars ParseVary Text TextSpec TextThm TextThm4 TextThm6 TextThm7 Tensor TensorThm TensorText TensorTree TensorSpec TensorEval TensorSum TensorSumText TensorSumTree TensorSumSpec TensorSumThm OuterText OuterTree OuterSpec.
Import ListNotations.
Open Scope Z_scope.
Open Scope res_scope.

(* ---- the text is an expression ---- *)
Lemma class_bar w k r : In k [10217; 93; 62] -> r <> [] -> classify (124 :: w ++ k :: r) = TExpr.
Proof.
  intros C R. assert (E : 124 :: w ++ k :: r = (124 :: w) ++ k :: r) by reflexivity.
  destruct C as [<-|[<-|[<-|[]]]]; unfold classify; first_gone; repeat match goal with |- context [search ?r0 ?t] => rewrite (no_inner' r0 t _ _ _ E R) by reflexivity end; reflexivity.
Qed.
Definition spread (t : pystr) : Prop := exists h w k r, In h [10216; 91; 60; 124] /\ In k [10217; 93; 62] /\ r <> [] /\ t = h :: w ++ k :: r.
Lemma spread_app t u : spread t -> spread (t ++ u).
Proof. intros (h & w & k & r & A & B & C & ->). exists h, w, k, (r ++ u). repeat split; [exact A|exact B|destruct r; [congruence|discriminate]|]. cbn [app]. rewrite <- app_assoc. reflexivity. Qed.
Lemma spread_class t : spread t -> classify t = TExpr.
Proof.
  intros (h & w & k & r & A & B & C & ->). cbn [In] in A. destruct A as [<-|[<-|[<-|[<-|[]]]]]; first [apply class_bar; assumption | apply class_bracket; [cbn; tauto|assumption|assumption]].
Qed.

Section Values.
Context {K : Fld}.
Add Field Kfout : (fth K).
Open Scope fld_scope.
Notation num v := (XNum (VElt v)).
Definition amat (m : m2 K) : wval K := XArr [[VElt (m00 m); VElt (m01 m)]; [VElt (m10 m); VElt (m11 m)]].
Lemma entries_eq (a b c d a' b' c' d' : K) : a = a' -> b = b' -> c = c' -> d = d' -> @Ok (wval K) (XArr [[VElt a; VElt b]; [VElt c; VElt d]]) = Ok (XArr [[VElt a'; VElt b']; [VElt c'; VElt d']]).
Proof. intros -> -> -> ->. reflexivity. Qed.
Section Node.
Variable o : pystr -> result (wval K).
Definition is_num (t : pystr) (v : K) : Prop := o t = Ok (num v).
Lemma nums_by ts vs : Forall2 is_num ts vs -> forall T u, weval o T = Ok (num u) -> weval o (fold_left by_call ts T) = Ok (num (u * times_all vs)).
Proof.
  induction 1 as [|t v ts vs H F IH]; intros T u E; cbn [fold_left times_all fold_right].
  - rewrite E. do 3 f_equal. ring.
  - rewrite (IH _ (u * v)); [do 3 f_equal; fold (times_all vs); ring|]. unfold by_call. cbn [weval]. rewrite E, H. reflexivity.
Qed.
Lemma mats_by ts vs : Forall2 is_num ts vs -> forall T m, weval o T = Ok (amat m) -> weval o (fold_left by_call ts T) = Ok (amat (mscale (times_all vs) m)).
Proof.
  induction 1 as [|t v ts vs H F IH]; intros T m E; cbn [fold_left times_all fold_right].
  - rewrite E. destruct m. apply entries_eq; cbn; ring.
  - rewrite (IH _ (mscale v m)); [do 2 f_equal; destruct m; unfold mscale; cbn; fold (times_all vs); f_equal; ring|]. unfold by_call. cbn [weval]. rewrite E, H. destruct m. apply entries_eq; cbn; ring.
Qed.
(* the calls of a product *)
Lemma term_val pre vs k a u b post ws t ts : Forall2 is_num pre vs -> o k = Ok (acol a) -> o u = Ok (arow b) -> Forall2 is_num post ws -> t :: ts = pre ++ k :: u :: post ->
  weval o (prod_of t ts) = Ok (amat (mscale (times_all vs * times_all ws) (M2 (e0 a * e0 b) (e0 a * e1 b) (e1 a * e0 b) (e1 a * e1 b)))).
Proof.
  intros P A B Q E. unfold prod_of. destruct P as [|t' v pre vs H P]; cbn [app] in E; injection E as -> ->.
  - cbn [fold_left]. rewrite (mats_by post ws Q _ (M2 (e0 a * e0 b) (e0 a * e1 b) (e1 a * e0 b) (e1 a * e1 b))).
    + unfold mscale. cbn [m00 m01 m10 m11 times_all fold_right]. do 2 f_equal. f_equal; ring.
    + unfold by_call. cbn [weval]. rewrite A, B. reflexivity.
  - rewrite fold_left_app. cbn [fold_left]. set (c := times_all (v :: vs)).
    assert (N : weval o (fold_left by_call pre (WoPs t')) = Ok (num c)) by (apply nums_by; [exact P|exact H]).
    rewrite (mats_by post ws Q _ (mscale c (M2 (e0 a * e0 b) (e0 a * e1 b) (e1 a * e0 b) (e1 a * e1 b)))).
    + unfold mscale. cbn [m00 m01 m10 m11]. do 2 f_equal. f_equal; ring.
    + unfold by_call at 1 2. cbn [weval]. rewrite N, A, B. apply entries_eq; cbn; ring.
Qed.
Definition chain_is (y : chain) (m : m2 K) : Prop := weval o (prod_of (fst y) (snd y)) = Ok (amat m).
Definition plusm (m : m2 K) (y : Z * m2 K) : m2 K := if (fst y =? 43)%Z then madd m (snd y) else msub m (snd y).
Lemma chains_val l : signs l -> forall ms T m, weval o T = Ok (amat m) -> Forall2 (fun a b => fst a = fst b /\ chain_is (snd a) (snd b)) l ms ->
  weval o (fold_left add_chain l T) = Ok (amat (fold_left plusm ms m)).
Proof.
  induction 1 as [|[c y] l P1 P IH]; intros ms T m E B; inversion B as [|? [c' n] ? ? [H1 H2] B']; subst; [exact E|]. cbn [fold_left fst snd] in *. subst c'. apply IH; [|exact B']. unfold add_chain, plusm, chain_is in *. cbn [fst snd weval]. rewrite E.
  destruct P1 as [-> | ->]; cbn [Z.eqb Pos.eqb]; rewrite H2; reflexivity.
Qed.
End Node.
End Values.

(* ---- from texts to parts ---- *)
Section Point.
Context {K : Fld}.
Add Field Kfout2 : (fth K).
Variables (s : ps K) (A : dict (@mval K)) (f : nat).
Notation o := (compute_wide (S f) s A).
Lemma p0_app x r r' : p0 x (r ++ r') = p0 x r ++ r'.
Proof. unfold p0. destruct x as [[|] i j|[|] i [|] j]; open2; repeat (cbn [app]; rewrite <- ?app_assoc); reflexivity. Qed.
Lemma tail_p0 u v : tail2 p0 (u ++ v) = tail2 p0 u ++ tail2 p0 v.
Proof. induction u as [|[c x] u IH]; [reflexivity|]. cbn [app tail2]. rewrite IH, p0_app. reflexivity. Qed.
Lemma starred_app u v : starred (u ++ v) = starred u ++ starred v. Proof. apply map_app. Qed.
Lemma flat2_app u v : flat2 (u ++ v) = flat2 u ++ flat2 v.
Proof. induction u as [|[c [x its]] u IH]; [reflexivity|]. cbn [app flat2]. rewrite IH, app_assoc. reflexivity. Qed.
(* a massless bracket *)
Definition scalar_part (t : pystr) (v : K) (x : part) : Prop := part_ok x /\ norm t = p0 x [] /\ only given' t /\ more_of x = [] /\ o (text_of x) = Ok (XNum (VElt v)) /\ exists h w k, In h [10216; 91; 60; 124] /\ In k [10217; 93; 62] /\ t = h :: w ++ [k].
Ltac inside := split; [cbn; tauto|split; [cbn; tauto|reflexivity]].
Lemma bracket_part t v : bracket s false t v -> exists x, scalar_part t v x.
Proof.
  intros B. remember false as m eqn:Em. destruct B as [i i' t1 j j' u p q w Hp Hq Et Eu Hi Hj E | i i' t1 j j' u w Et Eu Hi Hj E]; apply negb_false_iff, andb_true_iff in Em; destruct Em as [E1 E2]; apply Z.eqb_eq in E1, E2; subst i' j';
    (assert (t1 = dec i) as -> by (inversion Et; [reflexivity|lia])); (assert (u = dec j) as -> by (inversion Eu; [reflexivity|lia])); unfold end_in in *.
  - exists (Two false i j). unfold scalar_part, p0. open2. cbn [part_ok text_of more_of]. split; [lia|]. destruct (opening_angle p Hp) as (c & -> & Hc), (closing_angle q Hq) as (d & -> & Hd). unfold angle, shut in *.
    repeat (cbn [app]; rewrite <- ?app_assoc). split; [destruct Hc as [-> | ->], Hd as [-> | ->]; norms; reflexivity|]. split; [destruct Hc as [-> | ->], Hd as [-> | ->]; chars|]. split; [reflexivity|].
    split; [exact (wide_shows s A f _ _ _ (w_A2 i j OAng CAng ltac:(lia) ltac:(lia) (or_introl eq_refl) (or_introl eq_refl)) E)|]. exists c, (dec i ++ 124 :: dec j), d. split; [cbn; lia|]. split; [cbn; lia|]. repeat (cbn [app]; rewrite <- ?app_assoc). reflexivity.
  - exists (Two true i j). unfold scalar_part, p0. open2. cbn [part_ok text_of more_of]. split; [lia|]. change (lit "[") with [91]. change (lit "|") with [124]. change (lit "]") with [93].
    repeat (cbn [app]; rewrite <- ?app_assoc). split; [norms; reflexivity|]. split; [chars|]. split; [reflexivity|].
    split; [|exists 91, (dec i ++ 124 :: dec j), 93; split; [cbn; lia|split; [cbn; lia|repeat (cbn [app]; rewrite <- ?app_assoc); reflexivity]]].
    unfold spin_sign. rewrite !Z.eqb_refl. replace (f1 * f1 * w)%fld with w by ring. exact (wide_shows s A f _ _ _ (w_S2 i j ltac:(lia) ltac:(lia)) E).
Qed.
(* an outer product *)
Lemma outer_part t a u b : column s t a -> row s u b -> exists x k c, part_ok x /\ norm (t ++ u) = p0 x [] /\ only given' (t ++ u) /\ text_of x = k /\ more_of x = [c] /\ o k = Ok (acol a) /\ o c = Ok (arow b) /\ spread (t ++ u).
Proof.
  assert (L : forall t u k r, (exists w, t = 124 :: w ++ [k]) -> In k [10217; 93; 62] -> u <> [] -> r = t ++ u -> spread r).
  { intros t0 u0 k r (w & ->) I N ->. exists 124, w, k, u0. split; [cbn; tauto|]. split; [exact I|]. split; [exact N|]. cbn [app]. rewrite <- app_assoc. reflexivity. }
  intros C R. assert (exists sk i, 0 <= i /\ o (124 :: dec i ++ [ket_c sk]) = Ok (acol a) /\ exists k, t = 124 :: dec i ++ [k] /\ In k [10217; 93; 62] /\ conv k = ket_c sk) as (sk & i & Hi & Vk & k & -> & Ik & Ck).
  { destruct C as [i q a Hi Hq E | i a Hi E].
    - exists false, i. split; [exact Hi|]. split; [exact (wide_shows s A f _ _ _ (w_Ad i CAng Hi (or_introl eq_refl)) E)|]. destruct (closing_angle q Hq) as (d & -> & Hd). exists d. unfold shut in Hd. split; [reflexivity|]. destruct Hd as [-> | ->]; split; cbn; (tauto || reflexivity).
    - exists true, i. split; [exact Hi|]. split; [exact (wide_shows s A f _ _ _ (w_Su i Hi) E)|]. exists 93. split; [reflexivity|]. split; cbn; (tauto || reflexivity). }
  assert (exists sb j, 0 <= j /\ o (bra_c sb :: dec j ++ [124]) = Ok (arow b) /\ exists c, u = c :: dec j ++ [124] /\ In c [10216; 60; 91] /\ conv c = bra_c sb) as (sb & j & Hj & Vb & c & -> & Ic & Cc).
  { destruct R as [j p b Hj Hp E | j b Hj E].
    - exists false, j. split; [exact Hj|]. split; [exact (wide_shows s A f _ _ _ (w_Au j OAng Hj (or_introl eq_refl)) E)|]. destruct (opening_angle p Hp) as (d & -> & Hd). exists d. unfold angle in Hd. split; [reflexivity|]. destruct Hd as [-> | ->]; split; cbn; (tauto || reflexivity).
    - exists true, j. split; [exact Hj|]. split; [exact (wide_shows s A f _ _ _ (w_Sd j Hj) E)|]. exists 91. split; [reflexivity|]. split; cbn; (tauto || reflexivity). }
  exists (Out sk i sb j). eexists _, _. split; [split; assumption|]. repeat (cbn [app]; rewrite <- ?app_assoc). split.
  - unfold p0. cbn [pt]. cbn in Ik, Ic. assert (ND : forall x, In x [124] -> (conv x =? 10) || (conv x =? 32) = false) by (intros x [<-|[]]; reflexivity).
    destruct Ik as [<-|[<-|[<-|[]]]], Ic as [<-|[<-|[<-|[]]]], sk, sb; try discriminate Ck; try discriminate Cc; norms; reflexivity.
  - split; [cbn in Ik, Ic; destruct Ik as [<-|[<-|[<-|[]]]], Ic as [<-|[<-|[<-|[]]]]; chars|]. split; [reflexivity|]. split; [reflexivity|]. split; [exact Vk|]. split; [exact Vb|].
    eapply (L (124 :: dec i ++ [k]) (c :: dec j ++ [124])); [exists (dec i); reflexivity|exact Ik|discriminate|]. repeat (cbn [app]; rewrite <- ?app_assoc). reflexivity.
Qed.
Lemma scalar_parts l : Forall (plain_bracket s) l -> exists xs, Forall part_ok xs /\ Forall2 (is_num o) (calls_of xs) (map snd l) /\
  norm (concat (map (fun x => lit "*" ++ fst x) l)) = tail2 p0 (starred xs) /\ only given' (concat (map (fun x => lit "*" ++ fst x) l)) /\
  (forall y, norm (concat (map (fun x => fst x ++ lit "*") l) ++ y) = concat (map (fun x => p0 x [42]) xs) ++ norm y) /\ only given' (concat (map (fun x => fst x ++ lit "*") l)) /\
  match l with [] => True | _ => forall y, spread (concat (map (fun x => fst x ++ lit "*") l) ++ y) end.
Proof.
  induction 1 as [|tv l H F IH]; [exists []; split; [constructor|split; [constructor|split; [reflexivity|split; [intros ? []|split; [reflexivity|split; [intros ? []|exact I]]]]]]|]. destruct tv as [t v], IH as (xs & P & V & N & O & N' & O' & _).
  destruct (bracket_part t v H) as (x & K1 & K2 & K3 & K4 & K5 & h & w & k & K6 & K7 & K8). exists (x :: xs). cbn [map concat fst snd]. split; [constructor; assumption|]. unfold calls_of in *. cbn [map concat]. rewrite K4. cbn [app]. split; [constructor; [exact K5|exact V]|].
  split; [|split; [|split; [|split]]].
  - change (lit "*") with [42]. rewrite !norm_app. cbn [starred map tail2]. change (norm [42]) with [42]. rewrite K2. unfold starred in N. rewrite <- app_assoc. cbn [app]. f_equal. change (lit "*") with [42] in N. cbn [app] in N. rewrite N, <- p0_app. reflexivity.
  - apply only_app; [|exact O]. apply only_cons; [reflexivity|exact K3].
  - intros y. change (lit "*") with [42] in *. rewrite <- !app_assoc, (norm_app t), (norm_app [42]), N', K2. change (norm [42]) with [42]. rewrite (app_assoc (p0 x [])), <- p0_app. reflexivity.
  - apply only_app; [|exact O']. apply only_app; [exact K3|]. apply only_cons; [reflexivity|intros ? []].
  - intros y. rewrite K8. exists h, w, k, (42 :: concat (map (fun x => fst x ++ lit "*") l) ++ y). split; [exact K6|]. split; [exact K7|]. split; [discriminate|]. change (lit "*") with [42]. repeat (cbn [app]; rewrite <- ?app_assoc). reflexivity.
Qed.
(* a product *)
Lemma concat_p0 xs x r : exists y ys, concat (map (fun x => p0 x [42]) xs) ++ p0 x r = p0 y (tail2 p0 (starred ys) ++ r) /\ y :: ys = xs ++ [x].
Proof.
  induction xs as [|z xs (y & ys & E & L)]; [exists x, []; split; reflexivity|]. exists z, (y :: ys). split; [|cbn [app]; rewrite L; reflexivity].
  cbn [map concat]. rewrite <- app_assoc, E, <- p0_app. cbn [starred map tail2 app]. rewrite p0_app. reflexivity.
Qed.
Lemma parts_calls l m : calls_of (l ++ m) = calls_of l ++ calls_of m. Proof. unfold calls_of. rewrite map_app, concat_app. reflexivity. Qed.
Definition has2 (t : pystr) (l : list part) : Prop := Forall part_ok l /\ only given' t /\ spread t.
Lemma term_parts t m : matrix_term s t m -> exists y, has2 t (parts_of y) /\ norm t = all2 p0 (fst y) (starred (snd y)) /\ (2 <= length (text_of (fst y) :: snd (chain_of y)))%nat /\ chain_is o (chain_of y) m.
Proof.
  intros [pre k a u b post P C R Q]. destruct (scalar_parts pre P) as (xs & F1 & V1 & _ & _ & N1 & O1 & S1), (scalar_parts post Q) as (zs & F2 & V2 & N2 & O2 & _ & _ & _).
  destruct (outer_part k a u b C R) as (x & ck & cb & F & N & O & E1 & E2 & Vk & Vb & S). destruct (concat_p0 xs x (tail2 p0 (starred zs))) as (y & ys & E & L). exists (y, ys ++ zs). unfold parts_of. cbn [fst snd].
  assert (LL : y :: ys ++ zs = xs ++ x :: zs) by (change (y :: ys ++ zs) with ((y :: ys) ++ zs); rewrite L, <- app_assoc; reflexivity).
  assert (CC : text_of y :: more_of y ++ calls_of (ys ++ zs) = calls_of xs ++ ck :: cb :: calls_of zs).
  { change (text_of y :: more_of y ++ calls_of (ys ++ zs)) with (calls_of (y :: ys ++ zs)). rewrite LL, parts_calls. unfold calls_of at 2. cbn [map concat]. rewrite E1, E2. reflexivity. }
  split; [split; [|split]|split; [|split]].
  - rewrite LL. apply Forall_app. split; [exact F1|constructor; assumption].
  - apply only_app; [exact O1|]. apply only_app; [exact O|exact O2].
  - destruct pre as [|z pre]; [exact (spread_app (k ++ u) _ S)|apply S1].
  - rewrite N1, norm_app, N, N2, <- p0_app. cbn [app]. unfold all2. rewrite starred_app, tail_p0. exact E.
  - unfold chain_of. cbn [fst snd]. rewrite CC, app_length. cbn [length]. lia.
  - exact (term_val o _ _ ck a cb b _ _ _ _ V1 Vk Vb V2 CC).
Qed.
Lemma has2_app t l u m c : Parse.cls given' c = true -> has2 t l -> has2 u m -> has2 (t ++ [c] ++ u) (l ++ m).
Proof. intros C (F & O & S) (F' & O' & _). split; [apply Forall_app; auto|]. split; [|apply spread_app, S]. apply only_app; [exact O|]. apply only_cons; [rewrite C; apply orb_true_r|exact O']. Qed.
Definition sum_found (t : pystr) (m : m2 K) : Prop := exists y l m0 ms, has2 t (all_parts y l) /\ Forall (fun z => is_pm (fst z)) l /\ norm t = all2 p0 (fst y) (starred (snd y) ++ flat2 l) /\ (2 <= length (text_of (fst y) :: snd (chain_of y)))%nat /\
  chain_is o (chain_of y) m0 /\ Forall2 (fun a b => fst a = fst b /\ chain_is o (snd a) (snd b)) (chains_of l) ms /\ m = fold_left plusm ms m0.
Lemma sum_parts t m : matrix_sum s t m -> sum_found t m.
Proof.
  assert (J : forall t m u n c, is_pm c -> sum_found t m -> matrix_term s u n -> sum_found (t ++ [c] ++ u) (plusm m (c, n))).
  { intros t1 m1 u n c Cc (y & l & m0 & ms & H & P & N & L & W & V & ->) T. destruct (term_parts u n T) as (z & H' & N' & _ & W'). exists y, (l ++ [(c, z)]), m0, (ms ++ [(c, n)]). split; [|split; [|split; [|split; [|split; [|split]]]]].
    - unfold all_parts. rewrite map_app, concat_app, (app_assoc (parts_of y)). cbn [map concat snd]. rewrite app_nil_r. apply has2_app; [destruct Cc as [-> | ->]; reflexivity|exact H|exact H'].
    - apply Forall_app. split; [exact P|constructor; [exact Cc|constructor]].
    - rewrite !norm_app, N, N', flat2_app, (app_assoc (starred (snd y))). unfold all2. rewrite (tail_p0 (starred (snd y) ++ flat2 l) (flat2 [(c, z)])), p0_app. f_equal. destruct z as [x its]. cbn [flat2 tail2 fst snd]. rewrite app_nil_r. destruct Cc as [-> | ->]; reflexivity.
    - exact L.
    - exact W.
    - unfold chains_of. rewrite map_app. apply Forall2_app; [exact V|constructor; [split; [reflexivity|exact W']|constructor]].
    - rewrite fold_left_app. reflexivity. }
  induction 1 as [t m T | t m u n _ IH T | t m u n _ IH T].
  - destruct (term_parts t m T) as (y & H & N & L & W). exists y, [], m, []. split; [unfold all_parts; cbn [map concat]; rewrite app_nil_r; exact H|]. split; [constructor|]. split; [cbn [flat2]; rewrite app_nil_r; exact N|]. split; [exact L|]. split; [exact W|]. split; [constructor|reflexivity].
  - exact (J _ _ _ _ 43 (or_introl eq_refl) IH T).
  - exact (J _ _ _ _ 45 (or_intror eq_refl) IH T).
Qed.
Theorem matrix_value t m : matrix_sum s t m -> compute_wide (S (S f)) s A t = Ok (of_val (VMat m)).
Proof.
  intros M. destruct (sum_parts t m M) as (y & l & m0 & ms & (F & O & S) & P & N & L & W & V & ->). assert (G : psum_ok y l) by (split; assumption). destruct (flat2_ok y l G) as [G1 G2].
  erewrite read_text; [|apply given_small, O|apply spread_class, S|apply front_parts; [exact G1|exact G2|exact O|exact N]|apply parse_parts; [exact G|exact L]].
  unfold sum_of. erewrite chains_val; [|apply Forall_map; exact P|exact W|exact V]. reflexivity.
Qed.
(* momenta *)
Lemma slash_term i p : 0 <= i -> getitem s i = Ok p -> reproduces p -> matrix_term s (slash_text i) (r2 p).
Proof.
  intros Hi G (r & l & _ & _ & _ & E & Ru & Lu). rewrite E.
  assert (T := a_term s [] (lit "|" ++ dec i ++ lit "]") (raise_r l) ([10216] ++ dec i ++ lit "|") (raise_r r) []).
  assert (T' : matrix_term s (slash_text i) (mscale (times_all [] * times_all [])%fld (outer (raise_r l) (raise_r r)))).
  { unfold slash_text, outer. cbn [map concat] in T. repeat rewrite <- app_assoc in T. rewrite !app_nil_r in T. cbn [app] in *. apply T; [constructor| | |constructor].
    - apply square_column; [exact Hi|]. cbn [compute]. rewrite G. cbn. rewrite Lu. reflexivity.
    - apply (angle_row s i OAng); [exact Hi|left; reflexivity|]. cbn [compute]. rewrite G. cbn. rewrite Ru. reflexivity. }
  replace (outer (raise_r l) (raise_r r)) with (mscale (times_all [] * times_all [])%fld (outer (raise_r l) (raise_r r))) by (unfold mscale, outer, times_all; cbn; f_equal; ring). exact T'.
Qed.
Lemma momentum_sum i p l qs : 0 <= i -> getitem s i = Ok p -> reproduces p -> Forall2 (fun j q => 0 <= j /\ getitem s j = Ok q /\ reproduces q) l qs -> matrix_sum s (momentum_text i l) (msum (map (fun p => r2 p) (p :: qs))).
Proof.
  intros Hi G R F. unfold momentum_text. cbn [map]. assert (M := s_one s _ _ (slash_term i p Hi G R)). revert M. generalize (slash_text i) (r2 p). induction F as [|j q l qs (Hj & Gj & Rj) F IH]; intros t m M; cbn [map concat].
  - rewrite app_nil_r. replace (msum [m]) with m by (unfold msum, madd, mzero; cbn; destruct m; cbn; f_equal; ring). exact M.
  - replace (msum (m :: r2 q :: map (fun p => r2 p) qs)) with (msum (madd m (r2 q) :: map (fun p => r2 p) qs)) by (unfold msum, madd; cbn; f_equal; ring).
    rewrite (app_assoc t). apply IH. apply s_add; [exact M|]. apply slash_term; assumption.
Qed.
Theorem momentum_value i p l qs : 0 <= i -> getitem s i = Ok p -> reproduces p -> Forall2 (fun j q => 0 <= j /\ getitem s j = Ok q /\ reproduces q) l qs ->
  compute_wide (S (S f)) s A (momentum_text i l) = Ok (of_val (VMat (msum (map (fun p => r2 p) (p :: qs))))).
Proof. intros. apply matrix_value, momentum_sum; assumption. Qed.
End Point.
(* all legs *)
Section All.
Context {K : Fld}.
Lemma later_legs (s : ps K) : Forall (fun p => reproduces p) s -> forall pre, Forall2 (fun j q => 0 <= j /\ getitem (pre ++ s) j = Ok q /\ reproduces q) (map Z.of_nat (seq (S (length pre)) (length s))) s.
Proof.
  intros F. induction F as [|q s R F IH]; intros pre; [constructor|]. cbn [length seq map]. constructor.
  - split; [lia|]. split; [|exact R]. destruct (getitem_ok (pre ++ q :: s) (Z.of_nat (S (length pre)))) as (x & E & N); [unfold zlen; rewrite app_length; cbn [length]; lia|]. rewrite E. f_equal. replace (Z.to_nat (Z.of_nat (S (length pre)) - 1)) with (length pre + 0)%nat in N by lia. rewrite nth_error_app2 in N by lia. replace (length pre + 0 - length pre)%nat with O in N by lia. cbn in N. congruence.
  - specialize (IH (pre ++ [q])). rewrite <- app_assoc in IH. cbn [app] in IH. rewrite app_length in IH. cbn [length] in IH. replace (S (length pre + 1)) with (S (S (length pre))) in IH by lia. exact IH.
Qed.
Theorem all_legs (s : ps K) A f : s <> [] -> Forall (fun p => reproduces p) s ->
  (compute_wide (S (S f)) s A (momentum_text 1 (map Z.of_nat (seq 2 (length s - 1)))) = Ok (of_val (VMat mzero)) <-> total_mom s = mzero).
Proof.
  intros N F. destruct s as [|p s]; [congruence|]. inversion F as [|? ? Rp Fs]; subst. cbn [length]. rewrite Nat.sub_succ, Nat.sub_0_r.
  assert (H := later_legs (p :: s) F []). cbn [length seq map app] in H. inversion H as [|? ? ? ? (_ & G & _) Hs]; subst. clear H. change (Z.of_nat 1) with 1 in G.
  rewrite (momentum_value (p :: s) A f 1 p _ s); [|lia|exact G|exact Rp|exact Hs]. change (msum (map (fun p => r2 p) (p :: s))) with (total_mom (p :: s)). split; [|intros ->; reflexivity].
  intros E. destruct (total_mom (p :: s)) as [a b c d]. cbn in E. unfold mzero. congruence.
Qed.
End All.
