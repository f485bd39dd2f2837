(* The whole of _parse on sums of products of two-brackets and outer products, and the trees. *)
From Coq Require Import Ascii String.
From Coq Require Import List ZArith Bool Lia.
From Verif Require Import Base Fld Str MassesThm Regex RegexThm Parse ParseSpec ParseChars ParseWrap ParseOpen ParseVary ParseStars Tensor TensorText TensorTree TensorSum TensorSumText TensorSumTree OuterText.
Import ListNotations.
Open Scope Z_scope.

(* ---- replacements with nothing to replace ---- *)
Lemma sub_suffix m (u : pystr) : (forall b s, (exists p, u = p ++ s) -> m b s = None) -> re_sub m [] 0 u = u.
Proof.
  intros H. assert (G : forall r p b, u = p ++ r -> re_sub m b 0 r = r); [|apply (G u []); reflexivity].
  induction r as [|c r IH]; intros p b E; [reflexivity|]. rewrite sub_step by (apply H; exists p; exact E). f_equal. apply (IH (p ++ [c])). rewrite <- app_assoc. exact E.
Qed.
Lemma spin_no f g h out (u : pystr) : (forall c, In c u -> g c = false) -> re_sub (m_spin f g h out) [] 0 u = u.
Proof.
  intros H. apply sub_suffix. intros b s (p & ->). unfold m_spin. destruct s as [|c s1]; [reflexivity|]. destruct (f c); [|reflexivity]. cbv zeta. destruct (digits s1) as [|d ds] eqn:D; [reflexivity|]. destruct (skipn (length (d :: ds)) s1) as [|x [|y r]] eqn:S; try reflexivity.
  rewrite H; [reflexivity|]. apply in_or_app. right. right. rewrite <- (firstn_skipn (length (d :: ds)) s1), S. apply in_or_app. right. left. reflexivity.
Qed.
Lemma pow_no (u : pystr) : ~ In 94 u -> re_sub m_pow [] 0 u = u.
Proof. intros H. apply sub_suffix. intros b s (p & ->). unfold m_pow. destruct s as [|c s]; [reflexivity|]. rewrite (proj2 (Z.eqb_neq c 94)); [reflexivity|]. intros ->. apply H, in_or_app. right. left. reflexivity. Qed.
Lemma block_no (u : pystr) : ~ In 98 u -> re_sub m_block [] 0 u = u.
Proof.
  intros H. apply sub_suffix. intros b s (p & ->). unfold m_block. destruct s as [|c s]; [reflexivity|]. change (lit "block") with [98; 108; 111; 99; 107]. cbn [starts]. rewrite (proj2 (Z.eqb_neq 98 c)); [reflexivity|]. intros <-. apply H, in_or_app. right. left. reflexivity.
Qed.
(* the characters *)
Definition bare : list Z := [91; 93; 10216; 10217; 124; 43; 45; 42].
Definition quoted : list Z := 111 :: 80 :: 115 :: 40 :: 39 :: 41 :: bare.
Section Only.
Variables (L : list Z) (tx : part -> pystr -> pystr).
Hypothesis Hx : forall x r, part_ok x -> only L r -> only L (tx x r).
Hypothesis Ho : cls L 43 && cls L 45 && cls L 42 = true.
Lemma only_all2 x l : part_ok x -> parts_ok l -> only L (all2 tx x l).
Proof.
  intros H1 H. apply Hx; [exact H1|]. induction H as [|[o y] l [H2 H3] H IH]; [intros ? []|]. cbn [tail2]. apply only_cons; [|apply Hx; [exact H3|exact IH]].
  rewrite !andb_true_iff in Ho. destruct Ho as [[A B] C]. cbn [fst] in H2. destruct H2 as [-> |[-> | ->]]; [rewrite A|rewrite B|rewrite C]; apply orb_true_r.
Qed.
End Only.
Ltac parts x H := destruct x as [[|] i j|[|] i [|] j]; destruct H as [Hi Hj]; open2.
Lemma only_p0 x r : part_ok x -> only bare r -> only bare (p0 x r). Proof. intros H O. unfold p0. parts x H; texts' O. Qed.
Lemma only_p2 x r : part_ok x -> only quoted r -> only quoted (p2 x r). Proof. intros H O. unfold p2. parts x H; texts' O. Qed.
Lemma only_p6 x r : part_ok x -> only quoted r -> only quoted (p6 x r). Proof. intros H O. unfold p6. parts x H; texts' O. Qed.
Lemma only_p7 x r : part_ok x -> only quoted r -> only quoted (p7 x r). Proof. intros H O. unfold p7. parts x H; texts' O. Qed.
Lemma only_more L M u : forallb (cls M) L = true -> only L u -> only M u.
Proof. intros H O c I. destruct (O c I) as [D|D]; [left; exact D|right]. unfold cls in D. apply existsb_exists in D. destruct D as (d & D & E). apply Z.eqb_eq in E. subst d. exact (proj1 (forallb_forall _ _) H c D). Qed.
Lemma only_avoid L u k : only L u -> is_digit k = false -> cls L k = false -> ~ In k u.
Proof. intros O A B I. destruct (O k I); congruence. Qed.
(* neighbours *)
Section Pairs.
Variables f g : Z -> bool.
Hypothesis Hx : forall x r, part_ok x -> free r -> no_pair f g r -> no_pair f g (p6 x r).
Hypothesis Ho : f 43 || f 45 || f 42 = false.
Lemma pair_all2 ok x l : part_ok x -> parts_ok l -> re_sub (m_pair ok f g) [] 0 (all2 p6 x l) = all2 p6 x l.
Proof.
  intros H1 H. apply pair_none. apply Hx; [exact H1|apply free2, H|]. induction H as [|[o y] l [H2 H3] H IH]; [exact I|]. cbn [tail2]. apply no_pair_cons; [|apply Hx; [exact H3|apply free2, H|exact IH]].
  rewrite !orb_false_iff in Ho. cbn [fst] in H2. destruct H2 as [-> |[-> | ->]]; apply Ho.
Qed.
End Pairs.
Ltac pairs2 := intros x r H F N; unfold p6; parts x H; (destruct r as [|o r]; [|destruct F as [-> |[-> | ->]]]); repeat apart' N.
Lemma pq1 x r : part_ok x -> free r -> no_pair is_digit (is_c 115) r -> no_pair is_digit (is_c 115) (p6 x r). Proof. revert x r. pairs2. Qed.
Lemma pq2 x r : part_ok x -> free r -> no_pair is_digit (is_c 111) r -> no_pair is_digit (is_c 111) (p6 x r). Proof. revert x r. pairs2. Qed.
Lemma pq3 x r : part_ok x -> free r -> no_pair is_digit (is_c 40) r -> no_pair is_digit (is_c 40) (p6 x r). Proof. revert x r. pairs2. Qed.
Lemma pq4 x r : part_ok x -> free r -> no_pair (is_c 41) is_digit r -> no_pair (is_c 41) is_digit (p6 x r). Proof. revert x r. pairs2. Qed.
Lemma pq5 x r : part_ok x -> free r -> no_pair (is_c 41) (is_c 40) r -> no_pair (is_c 41) (is_c 40) (p6 x r). Proof. revert x r. pairs2. Qed.
(* calls *)
Lemma oPs_part x r : part_ok x -> no_oPs r -> no_oPs (p2 x r). Proof. intros H N. unfold p2. parts x H; repeat calls N. Qed.
Lemma oPs_all2 x l : part_ok x -> parts_ok l -> re_sub m_oPs [] 0 (all2 p2 x l) = all2 p2 x l.
Proof.
  intros H1 H. apply oPs_pass. apply oPs_part; [exact H1|]. induction H as [|[o y] l [H2 H3] H IH]; [exact I|]. cbn [tail2 fst snd] in *. apply no_oPs_cons; [destruct H2 as [-> |[-> | ->]]; reflexivity|]. apply oPs_part; assumption.
Qed.
Section Whole.
Variables (x : part) (l : list (Z * part)).
Hypothesis (H1 : part_ok x) (H : parts_ok l).
Lemma only0 : only bare (all2 p0 x l). Proof. apply only_all2; [exact only_p0|reflexivity|assumption|assumption]. Qed.
Lemma front_parts u : only given' u -> norm u = all2 p0 x l -> front u = all2 p0 x l.
Proof.
  intros O E. unfold front. rewrite (clean_given' u O), E. pose proof only0 as P. rewrite pow_no by (apply (only_avoid bare); [exact P|reflexivity|reflexivity]).
  rewrite skip_braces' by (apply (only_more bare); [reflexivity|exact P]). unfold parse_spins.
  rewrite (spin_no _ _ _ _ (all2 p0 x l)); [|intros c I; apply (only_not bare [95; 100] _ P); [reflexivity|reflexivity|exact I]].
  rewrite (spin_no _ _ _ _ (all2 p0 x l)); [|intros c I; apply (only_not bare [95; 100] _ P); [reflexivity|reflexivity|exact I]].
  rewrite (spin_no _ _ _ _ (all2 p0 x l)); [|intros c I; apply (only_not bare [94; 117] _ P); [reflexivity|reflexivity|exact I]].
  rewrite (spin_no _ _ _ _ (all2 p0 x l)); [|intros c I; apply (only_not bare [94; 117] _ P); [reflexivity|reflexivity|exact I]].
  apply (sub_lit _ _ 64); [cbn; tauto|]. apply (only_avoid bare); [exact P|reflexivity|reflexivity].
Qed.
Ltac st L := apply (all_stage2 _ _ _ x l L); try assumption; intros b o s [-> |[-> | ->]]; first [reflexivity | re1 | apply bis_other; discriminate | apply pair_miss; reflexivity].
Lemma few2 : only few' (all2 p2 x l). Proof. apply (only_more quoted); [reflexivity|]. apply only_all2; [exact only_p2|reflexivity|assumption|assumption]. Qed.
Lemma called6 : only called' (all2 p6 x l). Proof. apply (only_more quoted); [reflexivity|]. apply only_all2; [exact only_p6|reflexivity|assumption|assumption]. Qed.
Lemma quoted7 : only quoted (all2 p7 x l). Proof. apply only_all2; [exact only_p7|reflexivity|assumption|assumption]. Qed.
Ltac pr L := apply (pair_all2 _ _ L); [reflexivity|assumption|assumption].
Lemma back_parts : back (all2 p0 x l) = all2 p7 x l.
Proof.
  eapply back_by.
  - st q_bis. - st q_two. - st q_bis'. - st q_two'.
  - st q_s. - apply skip_mass', few2. - apply oPs_all2; assumption. - apply skip_mvar', few2.
  - apply skip_pre'; [reflexivity|reflexivity|apply few2]. - apply skip_pre'; [reflexivity|reflexivity|apply few2].
  - apply skip_tr5', few2. - apply skip_tr', few2. - apply skip_Dadj', few2. - apply skip_Dnon', few2.
  - st q_NB. - st q_Ab. - st q_Ak. - st q_Sb. - st q_Sk. - st q_begin. - st q_open_end. - st q_double. - st q_dot.
  - apply skip_sqrt', called6. - pr pq1. - pr pq2. - pr pq3. - pr pq4. - pr pq5. - st q_join.
  - apply skip_rat'. apply (only_more quoted); [reflexivity|apply quoted7].
  - apply block_no. apply (only_avoid quoted); [apply quoted7|reflexivity|reflexivity].
Qed.
End Whole.

(* ---- calls with signs between them ---- *)
Definition text_of (x : part) : pystr := match x with Two sq i j => bra_c sq :: dec i ++ 124 :: dec j ++ [ket_c sq] | Out sk i _ _ => 124 :: dec i ++ [ket_c sk] end.
Definition more_of (x : part) : list pystr := match x with Two _ _ _ => [] | Out _ _ sb j => [bra_c sb :: dec j ++ [124]] end.
Fixpoint k_by (l : list pystr) : list ktok := match l with [] => [] | t :: l' => KOp 42 :: k_call t ++ k_by l' end.
Definition k_part (x : part) : list ktok := k_call (text_of x) ++ k_by (more_of x).
Ltac token3 W :=
  idtac; lazymatch goal with
  | |- wl (39 :: _ :: dec _ ++ 124 :: dec _ ++ _) = _ => rewrite wl_two by side; apply map_some; token3 W
  | |- wl (39 :: _ :: dec _ ++ _) = _ => rewrite wl_quoted by side; apply map_some; token3 W
  | |- wl (111 :: 80 :: 115 :: ?r) = _ => change (111 :: 80 :: 115 :: r) with ((111 :: [80; 115]) ++ r); rewrite (wl_name [80; 115] 111) by reflexivity; apply map_some; token3 W
  | |- wl (42 :: _) = _ => rewrite wl_star by discriminate; apply map_some; token3 W
  | |- wl (_ :: _) = _ => rewrite wl_op by reflexivity; apply map_some; token3 W
  | |- _ => exact W
  end.
Lemma part_tokens x r ts : part_ok x -> wl r = Some ts -> wl (p7 x r) = Some (k_part x ++ ts).
Proof. intros H W. unfold p7, k_part, text_of, more_of. parts x H; cbv [k_call k_by bra_c ket_c]; cbn [app]; token3 W. Qed.
Lemma part_head x r : exists t, p7 x r = 111 :: t.
Proof. unfold p7. destruct x as [[|] i j|[|] i [|] j]; open2; eexists; reflexivity. Qed.
Fixpoint k_parts (l : list (Z * part)) : list ktok := match l with [] => [] | (o, x) :: l' => KOp o :: k_part x ++ k_parts l' end.
Lemma parts_tokens l : parts_ok l -> wl (tail2 p7 l) = Some (k_parts l).
Proof.
  intros H. induction H as [|[o x] l [H1 H2] H IH]; [reflexivity|]. cbn [tail2 k_parts fst snd] in *. assert (W := part_tokens x _ _ H2 IH). destruct (part_head x (tail2 p7 l)) as (t & E).
  destruct H1 as [-> |[-> | ->]]; [rewrite wl_op by reflexivity; apply map_some, W|rewrite wl_op by reflexivity; apply map_some, W|]. rewrite wl_star; [apply map_some, W|]. rewrite E. discriminate.
Qed.
Lemma all2_tokens x l : part_ok x -> parts_ok l -> wl (all2 p7 x l) = Some (k_part x ++ k_parts l).
Proof. intros H1 H. apply part_tokens; [exact H1|apply parts_tokens, H]. Qed.
(* ---- the trees ---- *)
Definition by_call (a : wast) (t : pystr) : wast := WBin BMul a (WoPs t).
Definition prod_of (t : pystr) (l : list pystr) : wast := fold_left by_call l (WoPs t).
Lemma by_stops l r : ends_term r -> stops (k_by l ++ r). Proof. destruct l; [apply ends_stops|]. intros _. cbn. tauto. Qed.
Lemma terms_by l : forall f a r, ends_term r -> (60 + length l < f)%nat -> w_terms f a (k_by l ++ r) = Some (fold_left by_call l a, r).
Proof.
  induction l as [|t l IH]; intros f a r E L; cbn [length] in L; (destruct f as [|f]; [lia|]).
  - apply terms_end, E.
  - cbn [k_by app fold_left]. rewrite terms_mul, <- app_assoc. replace f with (60 + (f - 60))%nat at 1 by lia. rewrite (call_factor _ _ _ (by_stops l r E)). apply IH; [exact E|lia].
Qed.
Lemma term_by t l f r : ends_term r -> (61 + length l < f)%nat -> w_term f (k_call t ++ k_by l ++ r) = Some (prod_of t l, r).
Proof.
  intros E L. destruct f as [|f]; [lia|]. rewrite term_S. replace f with (60 + (f - 60))%nat at 1 by lia. rewrite (call_factor _ _ _ (by_stops l r E)). apply terms_by; [exact E|lia].
Qed.
Definition chain := (pystr * list pystr)%type.
Fixpoint k_chains (l : list (Z * chain)) : list ktok := match l with [] => [] | (o, (t, ts)) :: l' => KOp o :: k_call t ++ k_by ts ++ k_chains l' end.
Definition add_chain (a : wast) (y : Z * chain) : wast := WBin (if fst y =? 43 then BAdd else BSub) a (prod_of (fst (snd y)) (snd (snd y))).
Definition signs (l : list (Z * chain)) : Prop := Forall (fun y => is_pm (fst y)) l.
Lemma chains_end l : signs l -> ends_term (k_chains l). Proof. intros [|[o [x its]] l' H _]; cbn; [exact I|exact H]. Qed.
Lemma by_len l : (5 * length l <= length (k_by l))%nat. Proof. induction l as [|t l IH]; [cbn; lia|]. cbn [k_by length]. rewrite app_length. cbn. lia. Qed.
Lemma chains_tree l : signs l -> forall f a, (64 + length (k_chains l) < f)%nat -> w_sums f a (k_chains l) = Some (fold_left add_chain l a, []).
Proof.
  intros H. induction H as [|[o [t ts]] l H1 H IH]; intros f a L; (destruct f as [|f]; [lia|]); [reflexivity|].
  cbn [k_chains length] in L. rewrite !app_length in L. pose proof (by_len ts). cbn [k_chains fold_left]. rewrite sums_pm by exact H1. rewrite term_by; [|apply chains_end, H|lia]. apply IH. cbn in L. lia.
Qed.
Definition sum_of (y : chain) (l : list (Z * chain)) : wast := fold_left add_chain l (prod_of (fst y) (snd y)).
Lemma chain_tree t ts l f : signs l -> (66 + length (k_call t ++ k_by ts ++ k_chains l) < f)%nat -> w_sum f (k_call t ++ k_by ts ++ k_chains l) = Some (sum_of (t, ts) l, []).
Proof.
  intros H L. rewrite !app_length in L. pose proof (by_len ts). destruct f as [|f]; [lia|]. rewrite sum_S, term_by; [|apply chains_end, H|cbn in L; lia]. apply chains_tree; [exact H|cbn in L; lia].
Qed.
(* a product is a list of parts, a sum a list of products *)
Definition pterm := (part * list part)%type.
Definition starred (l : list part) : list (Z * part) := map (pair 42) l.
Fixpoint flat2 (l : list (Z * pterm)) : list (Z * part) := match l with [] => [] | (o, (x, xs)) :: l' => (o, x) :: starred xs ++ flat2 l' end.
Definition calls_of (l : list part) : list pystr := concat (map (fun x => text_of x :: more_of x) l).
Definition chain_of (y : pterm) : chain := (text_of (fst y), more_of (fst y) ++ calls_of (snd y)).
Definition chains_of (l : list (Z * pterm)) : list (Z * chain) := map (fun y => (fst y, chain_of (snd y))) l.
Lemma by_app u v : k_by (u ++ v) = k_by u ++ k_by v. Proof. induction u as [|t u IH]; [reflexivity|]. cbn [app k_by]. rewrite IH. reflexivity. Qed.
Lemma parts_app u v : k_parts (u ++ v) = k_parts u ++ k_parts v. Proof. induction u as [|[o x] u IH]; [reflexivity|]. cbn [app k_parts]. rewrite IH, app_assoc. reflexivity. Qed.
Lemma parts_starred l : k_parts (starred l) = k_by (calls_of l).
Proof. induction l as [|x l IH]; [reflexivity|]. unfold calls_of, k_part in *. cbn [starred map k_parts concat app k_by]. unfold starred in IH. rewrite IH, by_app. unfold k_part. rewrite <- app_assoc. reflexivity. Qed.
Lemma parts_flat l : k_parts (flat2 l) = k_chains (chains_of l).
Proof.
  induction l as [|[o [x xs]] l IH]; [reflexivity|]. cbn [flat2 k_parts chains_of map k_chains chain_of fst snd]. rewrite parts_app, parts_starred, IH, by_app. unfold k_part. rewrite <- !app_assoc. reflexivity.
Qed.
Definition parts_of (y : pterm) : list part := fst y :: snd y.
Definition all_parts (y : pterm) (l : list (Z * pterm)) : list part := parts_of y ++ concat (map (fun z => parts_of (snd z)) l).
Definition psum_ok (y : pterm) (l : list (Z * pterm)) : Prop := Forall (fun z => is_pm (fst z)) l /\ Forall part_ok (all_parts y l).
Lemma flat2_ok y l : psum_ok y l -> part_ok (fst y) /\ parts_ok (starred (snd y) ++ flat2 l).
Proof.
  intros [P F]. unfold all_parts, parts_of at 1 in F. cbn [app] in F. rewrite Forall_cons_iff, Forall_app in F. destruct F as (F1 & F2 & F3). split; [exact F1|]. apply Forall_app.
  assert (T : forall its, Forall part_ok its -> Forall (fun y => is_o (fst y) /\ part_ok (snd y)) (starred its)).
  { intros its H. apply Forall_map. eapply Forall_impl; [|exact H]. intros a Ha. cbn. unfold is_o. tauto. }
  split; [apply T, F2|]. clear F1 F2. induction P as [|[o [x its]] l P1 P IH]; [constructor|]. cbn [map concat snd fst] in F3. unfold parts_of at 1 in F3. cbn [fst snd app] in F3. rewrite Forall_cons_iff, Forall_app in F3. destruct F3 as (A & B & C).
  cbn [flat2]. constructor; [split; [cbn in *; unfold is_pm, is_o in *; tauto|exact A]|]. apply Forall_app. split; [apply T, B|apply IH, C].
Qed.
(* enough fuel: there are two calls *)
Lemma parse_parts y l : psum_ok y l -> (2 <= length (text_of (fst y) :: snd (chain_of y)))%nat ->
  wast_parse (back (all2 p0 (fst y) (starred (snd y) ++ flat2 l))) = Ok (sum_of (chain_of y) (chains_of l)).
Proof.
  intros K L. destruct (flat2_ok y l K) as [H1 H]. eapply parse_by; [apply back_parts; assumption|rewrite all2_tokens by assumption; reflexivity|].
  rewrite parts_app, parts_starred, parts_flat. unfold k_part. rewrite <- app_assoc, (app_assoc (k_by (more_of (fst y)))), <- by_app. apply (chain_tree (text_of (fst y)) (more_of (fst y) ++ calls_of (snd y)) (chains_of l)).
  - destruct K as [P _]. apply Forall_map. exact P.
  - rewrite !app_length. cbn [length snd chain_of] in L. pose proof (by_len (more_of (fst y) ++ calls_of (snd y))). cbn. lia.
Qed.
