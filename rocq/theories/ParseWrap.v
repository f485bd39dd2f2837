(* Proofs about the textual replacements of _parse: invariants become calls. *)
From Coq Require Import Ascii String.
From Coq Require Import List ZArith Bool Lia.
From Verif Require Import Base Str Symm Regex RegexThm Parse ParseSpec MassesThm GenThm.
From Verif Require Export ParseText.
Import ListNotations.
Open Scope Z_scope.

(* ---- passes without effect ---- *)
Lemma pow_other c b s : c <> 94 -> m_pow b (c :: s) = None.
Proof. intros H. unfold m_pow. rewrite (proj2 (Z.eqb_neq c 94) H). reflexivity. Qed.
Lemma pass_pow t b r : tok_ok t -> after false t r -> re_sub m_pow b 0 (st false 0 t ++ r) = st true 0 t ++ re_sub m_pow (rev (st false 0 t) ++ b) 0 r.
Proof.
  intros K A. destruct (match t with TCaret => true | _ => false end) eqn:E.
  - destruct t; try discriminate E. cbn [st]. apply sub_match; [discriminate|]. cbn [app m_pow]. rewrite Z.eqb_refl. destruct r as [|c r]; [reflexivity|].
    destruct A as ([A|A] & _); [|inl A; reflexivity]. apply is_digit_iff in A.
    rewrite (proj2 (Z.eqb_neq c 93)), (proj2 (Z.eqb_neq c 10217)), (proj2 (Z.eqb_neq c 62)), (proj2 (Z.eqb_neq c 124)) by lia. reflexivity.
  - replace (st true 0 t) with (st false 0 t) by (destruct t; try discriminate E; reflexivity).
    apply sub_plain. intros b' c s I. apply pow_other. intros ->. apply st_chars in I; [|exact K]. destruct t; unfold inv_char in I; cbn in I; try discriminate; try lia; try discriminate E.
Qed.
Lemma pass_end w ts p : Forall tok_ok ts -> re_sub m_end [] 0 (txt (st p w) ts) = txt (st p w) ts.
Proof.
  intros F. assert (N := txt_strange p w ts 125 ltac:(strange) F). revert N. generalize (txt (st p w) ts). intros u N. generalize (@nil Z) at 1. induction u as [|c u IH]; intros b; [reflexivity|].
  rewrite sub_step; [f_equal; apply IH; intros I; apply N; right; exact I|]. unfold m_end. destruct u; [|reflexivity]. destruct (Z.eqb_spec c 125) as [->|]; [|reflexivity]. exfalso. apply N. left. reflexivity.
Qed.
Lemma braces_other c b s : c <> 123 -> m_braces b (c :: s) = None.
Proof. intros H. unfold m_braces. rewrite (proj2 (Z.eqb_neq c 123) H). reflexivity. Qed.
Lemma mass_other c b s : c <> 109 -> c <> 77 -> m_mass b (c :: s) = None.
Proof. intros H1 H2. unfold m_mass, cls. cbn [existsb]. rewrite (proj2 (Z.eqb_neq c 109) H1), (proj2 (Z.eqb_neq c 77) H2). reflexivity. Qed.
Lemma mvar_other c b s : c <> 109 -> c <> 77 -> c <> 956 -> m_mvar b (c :: s) = None.
Proof. intros H1 H2 H3. unfold m_mvar, cls. cbn [existsb]. rewrite (proj2 (Z.eqb_neq c 109) H1), (proj2 (Z.eqb_neq c 77) H2), (proj2 (Z.eqb_neq c 956) H3). reflexivity. Qed.
(* passes that start at characters that do not occur *)
Lemma pass_strange m p w ts (l : list Z) : (forall b c s, ~ In c l -> m b (c :: s) = None) -> Forall strange l -> Forall tok_ok ts -> re_sub m [] 0 (txt (st p w) ts) = txt (st p w) ts.
Proof.
  intros H S F. assert (N : forall c, In c (txt (st p w) ts) -> ~ In c l). { intros c I J. apply (txt_strange p w ts c); [exact (proj1 (Forall_forall _ _) S c J)|exact F|exact I]. }
  revert N. generalize (txt (st p w) ts). intros u N. generalize (@nil Z) at 1. induction u as [|c u IH]; intros b; [reflexivity|].
  rewrite sub_step; [f_equal; apply IH; intros x I; apply N; right; exact I|]. apply H, N. left. reflexivity.
Qed.
(* passes that start at a character that occurs only in some invariants *)
Lemma each_first m k w t b r : (forall b c s, c <> k -> m b (c :: s) = None) -> tok_ok t -> (forall a, t = TInv a -> ~ In k (kind_chars a)) ->
  ~ (48 <= k <= 57) -> ~ In k [111; 80; 115; 40; 39; 41; 43; 45; 42; 47; 94] -> each (none m) b (st true w t) r.
Proof.
  intros H K X N1 N2. apply each_all. intros b' c s I. apply H. intros ->. destruct t as [n|a| | | | | | |]; cbn [st tok_text] in I; try (inl I; cbn in N2; tauto).
  - eapply dec_in in I; [|exact K]. tauto.
  - specialize (X a eq_refl). assert (J : In k (inv_text a) -> False) by (intros J; apply inv_kind in J; [|exact K]; tauto).
    destruct (rank a <=? w)%nat; [|auto]. apply In_call in I. destruct I as [I|[I|I]]; [|auto|]; cbn in I, N2; tauto.
Qed.
(* ---- s_ijk ---- *)
Lemma s_other c b s : c <> 115 -> c <> 83 -> m_s b (c :: s) = None.
Proof. intros H1 H2. unfold m_s. rewrite (proj2 (Z.eqb_neq c 115) H1), (proj2 (Z.eqb_neq c 83) H2). reflexivity. Qed.
Lemma pass_s ts : Forall tok_ok ts -> (forall l t ts', ts = l ++ t :: ts' -> after true t (txt (st true 2) ts')) ->
  re_sub m_s [] 0 (txt (st true 2) ts) = txt (st true 3) ts.
Proof.
  intros F A. apply (pass_wrap _ 2 true); [| |exact F|exact A].
  - intros a b r K R Af. destruct a; try discriminate R. cbn [inv_text]. change (lit "s_") with [115; 95]. cbn [app]. unfold m_s. cbn [Z.eqb Pos.eqb orb]. cbn in K.
    rewrite digits_app by (try (apply dec_numeric; exact K); exact (after_stops true (TInv (Man n)) r eq_refl Af)). destruct (dec_cons n K) as (d & ds & E). rewrite E. reflexivity.
  - intros t b r K _ X. assert (Q : forall u b r, ~ In 115 u -> ~ In 83 u -> each (none m_s) b u r).
    { intros u b' r' N1 N2. apply each_all. intros b2 c s I. apply s_other; intros ->; tauto. }
    destruct t as [n|a| | | | | | |]; cbn [st tok_text]; try (apply Q; cbn; lia).
    + apply Q; intros I; eapply dec_in in I; try exact K; lia.
    + specialize (X a eq_refl). assert (N : ~ In 115 (inv_text a) /\ ~ In 83 (inv_text a)).
      { split; intros I; apply inv_kind in I; try exact K; destruct I as [I|I]; try lia; destruct a; cbn in I; try lia; apply X; reflexivity. }
      destruct (rank a <=? 2)%nat; [|apply Q; tauto]. unfold call. apply each_app. split; [cbn; repeat split|]. apply each_app. split; [apply Q; tauto|apply Q; cbn; lia].
Qed.
(* ---- a prefix and a number ---- *)
Lemma pre_match pre b n r : pre <> [] -> 0 <= n -> stops r -> m_pre pre b ((pre ++ dec n) ++ r) = Some (length (pre ++ dec n), call (pre ++ dec n)).
Proof.
  intros N Hn S. unfold m_pre. rewrite <- app_assoc. replace (starts pre (pre ++ dec n ++ r)) with true.
  2:{ symmetry. clear. induction pre as [|c pre IH]; [reflexivity|]. cbn [app starts]. rewrite Z.eqb_refl. exact IH. }
  rewrite skipn_app', digits_app by (try apply dec_numeric, Hn; exact S). destruct (dec_cons n Hn) as (d & ds & E). rewrite E. rewrite app_length. reflexivity.
Qed.
Lemma pre_other c pre k b s : c <> k -> m_pre (k :: pre) b (c :: s) = None.
Proof. intros H. unfold m_pre. cbn [starts]. rewrite (proj2 (Z.eqb_neq k c)) by congruence. reflexivity. Qed.
Lemma pass_pre k w ts : (k = 937 /\ w = 3%nat) \/ (k = 928 /\ w = 4%nat) -> Forall tok_ok ts -> (forall l t ts', ts = l ++ t :: ts' -> after true t (txt (st true w) ts')) ->
  re_sub (m_pre [k; 95]) [] 0 (txt (st true w) ts) = txt (st true (S w)) ts.
Proof.
  intros C F A. apply (pass_wrap _ w true); [| |exact F|exact A].
  - intros a b r K R Af. destruct C as [(-> & ->)|(-> & ->)]; destruct a; try discriminate R; cbn in K; apply (pre_match [_; 95]); try discriminate; try exact K; (eapply after_stops; [|exact Af]; reflexivity).
  - intros t b r K _ X. apply (each_first _ k); [intros; apply pre_other; assumption|exact K| |lia|cbn; lia].
    intros a E. specialize (X a E). destruct C as [(-> & ->)|(-> & ->)]; destruct a; cbn in X |- *; lia.
Qed.
(* passes that do not match at the head of an invariant either *)
Lemma each_head m k w t b r : (forall b c s, c <> k -> m b (c :: s) = None) -> tok_ok t ->
  (forall a, t = TInv a -> ~ In k (kind_chars a) \/ exists u, inv_text a = k :: u /\ ~ In k u /\ forall b r', m b (k :: u ++ r') = None) ->
  ~ (48 <= k <= 57) -> ~ In k [111; 80; 115; 40; 39; 41; 43; 45; 42; 47; 94] -> each (none m) b (st true w t) r.
Proof.
  intros H K X N1 N2. assert (Y : (forall a, t = TInv a -> ~ In k (kind_chars a)) \/ exists a u, t = TInv a /\ inv_text a = k :: u /\ ~ In k u /\ forall b r', m b (k :: u ++ r') = None).
  { destruct t as [n|a| | | | | | |]; try (left; intros; discriminate). destruct (X a eq_refl) as [Y|(u & Y)]; [left; intros a' E; injection E as <-; exact Y|right; exists a, u; split; [reflexivity|exact Y]]. }
  destruct Y as [Y|(a & u & -> & E & Nu & M)]; [apply (each_first _ k); assumption|]. cbn [st].
  assert (Q : forall v b r, ~ In k v -> each (none m) b v r). { intros v b' r' N. apply each_all. intros b2 c s I. apply H. intros ->. tauto. }
  assert (Z : forall b r', each (none m) b (inv_text a) r'). { intros b' r'. rewrite E. cbn [each]. split; [apply M|apply Q, Nu]. }
  destruct (rank a <=? w)%nat; [|apply Z]. unfold call. apply each_app. split; [apply Q; cbn in N2 |- *; tauto|]. apply each_app. split; [apply Z|apply Q; cbn in N2 |- *; tauto].
Qed.
Lemma run_app f u c r : Forall (fun x => f x = true) u -> f c = false -> run f (u ++ c :: r) = u.
Proof. intros F C. induction F as [|x u H F IH]; cbn [app run]; [rewrite C; reflexivity|]. rewrite H, IH. reflexivity. Qed.
Lemma starts_app (u v : pystr) : starts u (u ++ v) = true.
Proof. induction u as [|c u IH]; [reflexivity|]. cbn [app starts]. rewrite Z.eqb_refl. exact IH. Qed.
Lemma args_match pre b d r : Forall (fun x => is_sum x = true) d -> m_args pre b ((pre ++ d ++ [41]) ++ r) = Some (length (pre ++ d ++ [41]), call (pre ++ d ++ [41])).
Proof.
  intros F. unfold m_args. rewrite <- app_assoc, starts_app. cbv zeta. rewrite skipn_app'. rewrite <- app_assoc. cbn [app]. rewrite run_app by (try exact F; reflexivity). rewrite skipn_app'.
  cbn [Z.eqb Pos.eqb]. do 2 f_equal. rewrite !app_length. cbn [length]. lia.
Qed.
Lemma slot_sum m : slot_ok m -> bare m -> Forall (fun c => is_sum c = true) (slot_text m).
Proof.
  destruct m as [p i l]. cbn [bare slot_ok]. intros (A & B & _) ->. cbn [slot_text app]. rewrite app_nil_r. unfold label in *. apply Forall_app. split.
  - eapply Forall_impl; [|apply dec_numeric; lia]. intros c H. unfold is_sum. rewrite H. reflexivity.
  - apply Forall_concat, Forall_map. eapply Forall_impl; [|exact B]. intros (s, k) H. cbn [snd] in H. unfold signed. cbn [fst snd]. constructor; [destruct s; reflexivity|].
    eapply Forall_impl; [|apply dec_numeric; lia]. intros c C. unfold is_sum. rewrite C. reflexivity.
Qed.
Lemma slots_sum ms : Forall slot_ok ms -> Forall bare ms -> Forall (fun c => is_sum c = true) (slots ms).
Proof.
  intros F B. unfold slots. apply Forall_concat, Forall_map. apply Forall_forall. intros m I. unfold barred. constructor; [reflexivity|]. apply slot_sum; [exact (proj1 (Forall_forall _ _) F m I)|exact (proj1 (Forall_forall _ _) B m I)].
Qed.
Lemma args_sum m ms : Forall slot_ok (m :: ms) -> Forall bare (m :: ms) -> Forall (fun c => is_sum c = true) (slot_text m ++ slots ms).
Proof. intros F B. inversion F; inversion B; subst. apply Forall_app. split; [apply slot_sum; assumption|apply slots_sum; assumption]. Qed.
Lemma args_cons m ms : Forall slot_ok (m :: ms) -> Forall bare (m :: ms) -> exists c u, slot_text m ++ slots ms = c :: u /\ is_sum c = true.
Proof.
  intros F B. assert (S := args_sum m ms F B). destruct (slot_text m ++ slots ms) as [|c u] eqn:E; [|exists c, u; split; [reflexivity|inversion S; assumption]].
  exfalso. inversion F; subst. destruct m as [p i l]. cbn [slot_text slot_ok] in *. unfold label in *. apply (dec_nil i ltac:(lia)). apply app_eq_nil in E. destruct E as [E _]. apply app_eq_nil in E. destruct E as [_ E]. apply app_eq_nil in E. tauto.
Qed.
Lemma args_other c pre k b s : c <> k -> m_args (k :: pre) b (c :: s) = None.
Proof. intros H. unfold m_args. cbn [starts]. rewrite (proj2 (Z.eqb_neq k c)) by congruence. reflexivity. Qed.
Lemma tr5_other c b s : c <> 116 -> m_tr5 b (c :: s) = None.
Proof.
  intros H. unfold m_tr5. change (lit "tr5_") with (116 :: lit "r5_"). rewrite pre_other by exact H. destruct s as [|? [|? [|? [|x s]]]]; try reflexivity. change (lit "tr5(") with (116 :: lit "r5("). rewrite args_other by exact H. destruct (is_sum x); reflexivity.
Qed.
Lemma tr_other c b s : c <> 116 -> m_tr b (c :: s) = None.
Proof.
  intros H. unfold m_tr. change (lit "tr((") with (116 :: lit "r(("). change (lit "tr(") with (116 :: lit "r("). destruct s as [|? [|? [|p [|x s]]]]; rewrite ?args_other by exact H; try reflexivity. destruct ((p =? 40) && is_sum x); reflexivity.
Qed.
Lemma tr5_tr b s : m_tr5 b (116 :: 114 :: 40 :: s) = None.
Proof. unfold m_tr5, m_pre, m_args. cbn [starts lit list_ascii_of_string map]. cbn. destruct s as [|? [|x s]]; try reflexivity. destruct (is_sum x); reflexivity. Qed.
Lemma tr_tr5 b s : m_tr b (116 :: 114 :: 53 :: s) = None.
Proof. unfold m_tr, m_args. cbn. destruct s as [|p [|x s]]; try reflexivity. destruct ((p =? 40) && is_sum x); reflexivity. Qed.
Lemma slot_no116 m : slot_ok m -> ~ In 116 (slot_text m).
Proof. intros K I. apply slot_chars in I; [|exact K]. cbn in I. lia. Qed.
Lemma args_no116 m ms : Forall slot_ok (m :: ms) -> ~ In 116 (slot_text m ++ slots ms ++ [41]).
Proof.
  intros F I. inversion F; subst. rewrite !in_app_iff in I. destruct I as [I|[I|I]]; [eapply slot_no116; eassumption| |inl I; lia]. apply slots_chars in I; [|assumption]. cbn in I. lia.
Qed.
Lemma pass_tr5 ts : Forall tok_ok ts -> (forall l t ts', ts = l ++ t :: ts' -> after true t (txt (st true 5) ts')) ->
  re_sub m_tr5 [] 0 (txt (st true 5) ts) = txt (st true 6) ts.
Proof.
  intros F A. apply (pass_wrap _ 5 true); [| |exact F|exact A].
  - intros a b r K R Af. destruct a as [| | | | |m ms|n| | |]; try discriminate R; cbn [inv_ok] in K; cbn [inv_text].
    + destruct K as (K1 & K2). destruct (args_cons m ms K1 K2) as (c & u & E & C). assert (S := args_sum m ms K1 K2). rewrite (app_assoc (slot_text m)). rewrite E in *.
      rewrite <- (args_match (lit "tr5(") b (c :: u) r S). unfold m_tr5. change (m_pre (lit "tr5_") b ((lit "tr5(" ++ (c :: u) ++ [41]) ++ r)) with (@None (nat * pystr)).
      set (v := u ++ [41]). change ((lit "tr5(" ++ (c :: u) ++ [41]) ++ r) with (116 :: 114 :: 53 :: 40 :: c :: v ++ r). cbv iota beta. rewrite C. reflexivity.
    + unfold m_tr5. rewrite pre_match; [reflexivity|discriminate|exact K|]. eapply after_stops; [|exact Af]. reflexivity.
  - intros t b r K _ X. apply (each_head _ 116); [intros; apply tr5_other; assumption|exact K| |lia|cbn; lia]. intros a ->. specialize (X a eq_refl).
    destruct a as [| | | |m ms| | | | |]; try (left; cbn; lia); try (exfalso; apply X; reflexivity). right. exists (114 :: 40 :: slot_text m ++ slots ms ++ [41]). split; [reflexivity|]. split.
    + cbn [In]. intros [I|[I|I]]; try discriminate I. exact (args_no116 m ms (proj1 K) I).
    + intros b' r'. apply tr5_tr.
Qed.
Lemma pass_tr ts : Forall tok_ok ts -> (forall l t ts', ts = l ++ t :: ts' -> after true t (txt (st true 6) ts')) ->
  re_sub m_tr [] 0 (txt (st true 6) ts) = txt (st true 7) ts.
Proof.
  intros F A. apply (pass_wrap _ 6 true); [| |exact F|exact A].
  - intros a b r K R Af. destruct a as [| | | |m ms| | | | |]; try discriminate R; cbn [inv_ok] in K; cbn [inv_text].
    destruct K as (K1 & K2). destruct (args_cons m ms K1 K2) as (c & u & E & C). assert (S := args_sum m ms K1 K2). rewrite (app_assoc (slot_text m)). rewrite E in *.
    rewrite <- (args_match (lit "tr(") b (c :: u) r S). assert (C40 : c =? 40 = false). { apply Z.eqb_neq. intros ->. discriminate C. }
    set (v := u ++ [41]). change ((lit "tr(" ++ (c :: u) ++ [41]) ++ r) with (116 :: 114 :: 40 :: c :: v ++ r). unfold m_tr. destruct (v ++ r) as [|x y]; [reflexivity|]. rewrite C40. reflexivity.
  - intros t b r K _ X. apply (each_head _ 116); [intros; apply tr_other; assumption|exact K| |lia|cbn; lia]. intros a ->. specialize (X a eq_refl).
    destruct a as [| | | | |m ms|n| | |]; try (left; cbn; lia); try (exfalso; apply X; reflexivity); right.
    + exists (114 :: 53 :: 40 :: slot_text m ++ slots ms ++ [41]). split; [reflexivity|]. split; [|intros b' r'; apply tr_tr5].
      cbn [In]. intros [I|[I|[I|I]]]; try discriminate I. exact (args_no116 m ms (proj1 K) I).
    + exists (114 :: 53 :: 95 :: dec n). split; [reflexivity|]. split; [|intros b' r'; apply tr_tr5]. cbn [In]. intros [I|[I|[I|I]]]; try discriminate I. eapply dec_in in I; [|exact K]. lia.
Qed.
(* ---- Gram determinants ---- *)
Lemma Dadj_other c b s : c <> 916 -> m_Dadj b (c :: s) = None.
Proof. intros H. unfold m_Dadj. rewrite pre_other by exact H. reflexivity. Qed.
Lemma Dadj_bar b n s : 0 <= n -> m_Dadj b (916 :: 95 :: dec n ++ 124 :: s) = None.
Proof.
  intros H. unfold m_Dadj. change (916 :: 95 :: dec n ++ 124 :: s) with (([916; 95] ++ dec n) ++ 124 :: s). rewrite pre_match by (try discriminate; try exact H; reflexivity). rewrite skipn_app'. reflexivity.
Qed.
Lemma pass_Dadj w t b r : tok_ok t -> each (none m_Dadj) b (st true w t) r.
Proof.
  intros K. apply (each_head _ 916); [intros; apply Dadj_other; assumption|exact K| |lia|cbn; lia]. intros a ->. destruct a as [| | | | | | | | |n m ns]; try (left; cbn; lia). right. cbn in K.
  exists (95 :: dec n ++ concat (map (fun k => barred (dec k)) (m :: ns))). split; [reflexivity|]. inversion K as [|? ? K1 K2]; subst. split.
  - cbn [In]. rewrite in_app_iff. intros [I|[I|I]]; [discriminate I|eapply dec_in in I; lia|]. apply blocks_chars in I; [|exact K2]. lia.
  - intros b' r'. cbn [app]. rewrite <- app_assoc. cbn [map concat]. unfold barred at 1. cbn [app]. apply Dadj_bar. lia.
Qed.
Lemma Dnon_other c b s : c <> 916 -> m_Dnon b (c :: s) = None.
Proof. intros H. unfold m_Dnon. cbn [starts]. rewrite (proj2 (Z.eqb_neq 916 c)) by congruence. reflexivity. Qed.
Lemma blocks_digits u : numeric u -> u <> [] -> forall any r, blocks any (u ++ r) = u ++ blocks true r.
Proof.
  intros F N. induction F as [|c u H F IH]; [congruence|]. intros any r. cbn [app blocks]. rewrite H. f_equal. destruct u as [|d u]; [reflexivity|]. apply IH. discriminate.
Qed.
Lemma blocks_bars ns : Forall (fun k => 0 <= k <= 9999) ns -> forall r, stops r -> (match r with c :: _ => c <> 124 | [] => True end) -> blocks true (concat (map (fun k => barred (dec k)) ns) ++ r) = concat (map (fun k => barred (dec k)) ns).
Proof.
  intros F r S N. induction F as [|k ns K F IH]; cbn [map concat app].
  - destruct r as [|c r]; [reflexivity|]. cbn [blocks]. cbn in S. rewrite S. rewrite (proj2 (Z.eqb_neq c 124) N). reflexivity.
  - unfold barred at 1 3. cbn [app blocks]. change (is_digit 124) with false. cbv iota. rewrite Z.eqb_refl. cbn [andb]. rewrite <- app_assoc. rewrite digits_app.
    + destruct (dec_cons k ltac:(lia)) as (d & ds & E). rewrite E. cbn [negb]. rewrite <- E. f_equal. rewrite blocks_digits; [|apply dec_numeric; lia|rewrite E; discriminate]. f_equal. exact IH.
    + apply dec_numeric; lia.
    + destruct ns as [|k' ns]; [exact S|reflexivity].
Qed.
Lemma pass_Dnon ts : Forall tok_ok ts -> (forall l t ts', ts = l ++ t :: ts' -> after true t (txt (st true 7) ts')) ->
  re_sub m_Dnon [] 0 (txt (st true 7) ts) = txt (st true 8) ts.
Proof.
  intros F A. apply (pass_wrap _ 7 true); [| |exact F|exact A].
  - intros a b r K R Af. destruct a as [| | | | | | | | |n m ns]; try discriminate R. cbn [inv_ok] in K. cbn [inv_text]. inversion K as [|? ? K1 K2]; subst.
    unfold m_Dnon. cbn [app]. change (starts [916; 95] (916 :: 95 :: (dec n ++ concat (map (fun k => barred (dec k)) (m :: ns))) ++ r)) with true. cbv iota. cbn [skipn]. rewrite <- app_assoc.
    rewrite blocks_digits; [|apply dec_numeric; lia|apply dec_nil; lia]. rewrite blocks_bars; [|exact K2|exact (after_stops true (TInv (WDel n m ns)) r eq_refl Af)|].
    + destruct (dec_cons n ltac:(lia)) as (d & ds & E). rewrite E. reflexivity.
    + destruct r as [|c r]; [exact I|]. destruct Af as ([D|D] & _ & _); [apply is_digit_iff in D; lia|]. cbn in D. lia.
  - intros t b r K _ X. apply (each_first _ 916); [intros; apply Dnon_other; assumption|exact K| |lia|cbn; lia]. intros a E. specialize (X a E). destruct a; cbn in X |- *; lia.
Qed.
(* ---- chains ---- *)
Lemma split_first (Q : Z -> Prop) y s z v : ~ Q y -> ~ Q z -> forall u x, Forall Q u -> Forall Q x -> u ++ y :: s = x ++ z :: v -> u = x /\ y = z /\ s = v.
Proof.
  intros Ny Nz u. induction u as [|a u IH]; intros x Fu Fx E; destruct x as [|a' x]; cbn [app] in E; injection E as E1 E2.
  - auto.
  - subst. inversion Fx; subst. contradiction.
  - subst. inversion Fu; subst. contradiction.
  - inversion Fu; inversion Fx; subst. destruct (IH x) as (-> & -> & ->); auto.
Qed.
Definition dig (c : Z) : Prop := is_digit c = true.
Lemma digs_numeric u : digs u <-> u <> [] /\ numeric u.
Proof. unfold digs, numeric. rewrite !Forall_forall. split; intros (A & B); (split; [exact A|]); intros c I; apply is_digit_iff; auto. Qed.
Definition matches (r : re) (s : pystr) : Prop := exists g, par r s g.
Lemma m_seq a b s t : matches a s -> matches b t -> matches (RSeq a b) (s ++ t).
Proof. intros (g & G) (h & H). eexists. constructor; eassumption. Qed.
Lemma m_chr f c : f c = true -> matches (RChr f) [c]. Proof. intros H. eexists. constructor. exact H. Qed.
Lemma m_num n : 0 <= n -> matches rnum (dec n).
Proof. intros H. exists []. apply par_rnum. split; [|reflexivity]. apply digs_numeric. split; [apply dec_nil, H|apply dec_numeric, H]. Qed.
Lemma m_opt_no a : matches (ropt a) []. Proof. exists []. apply par_r. constructor. Qed.
Lemma m_opt_yes a s : matches a s -> matches (ropt a) s. Proof. intros (g & G). exists g. apply par_l. exact G. Qed.
Lemma m_plus_one a s : matches a s -> matches (rplus a) s.
Proof. intros (g & G). exists (g ++ []). rewrite <- (app_nil_r s). constructor; [exact G|constructor]. Qed.
Lemma m_plus_more a s t : s <> [] -> t <> [] -> matches a s -> matches (rplus a) t -> matches (rplus a) (s ++ t).
Proof.
  intros N N' (g & G) (h & H). apply par_RSeq in H. destruct H as (u & v & x & y & -> & -> & Hu & Hv). destruct u as [|c u].
  - cbn [app] in *. exists (g ++ y). constructor; assumption.
  - exists (g ++ x ++ y). constructor; [exact G|]. constructor; [discriminate|exact Hu|exact Hv].
Qed.
Definition e_slot : re := RSeq (ropt (rc 40)) (RSeq (rplus (RSeq rnum (ropt (RChr sep)))) (RSeq (ropt (rc 41)) (ropt (rc 124)))).
Lemma m_terms l : forall i, label i -> Forall (fun x => label (snd x)) l -> matches (rplus (RSeq rnum (ropt (RChr sep)))) (dec i ++ concat (map signed l)).
Proof.
  induction l as [|(s, k) l IH]; intros i A F; cbn [map concat].
  - apply m_plus_one. apply m_seq; [apply m_num; unfold label in A; lia|apply m_opt_no].
  - inversion F; subst. cbn [snd] in *. unfold signed at 1. cbn [fst snd]. change (((if s then 45 else 43) :: dec k) ++ concat (map signed l)) with ([if s then 45 else 43] ++ dec k ++ concat (map signed l)). rewrite (app_assoc (dec i)).
    unfold label in A. apply m_plus_more.
    + destruct (dec i); discriminate.
    + assert (N := dec_nil k ltac:(unfold label in *; lia)). destruct (dec k); [congruence|discriminate].
    + apply m_seq; [apply m_num; lia|]. apply m_opt_yes, m_chr. destruct s; reflexivity.
    + apply IH; assumption.
Qed.
Lemma m_slot m bar : slot_ok m -> matches e_slot (slot_text m ++ if bar : bool then [124] else []).
Proof.
  destruct m as [p i l]. cbn [slot_ok slot_text]. intros (A & B & _). rewrite <- !app_assoc. rewrite (app_assoc (dec i)). apply m_seq; [destruct p; [apply m_opt_yes, m_chr; reflexivity|apply m_opt_no]|].
  apply m_seq; [apply m_terms; assumption|]. apply m_seq; [destruct p; [apply m_opt_yes, m_chr; reflexivity|apply m_opt_no]|destruct bar; [apply m_opt_yes, m_chr; reflexivity|apply m_opt_no]].
Qed.
Lemma slot_nil m : slot_ok m -> slot_text m <> [].
Proof. destruct m as [p i l]. cbn [slot_ok slot_text]. intros (A & _ & _) E. apply app_eq_nil in E. destruct E as [_ E]. apply app_eq_nil in E. destruct E as [E _]. unfold label in A. exact (dec_nil i ltac:(lia) E). Qed.
Lemma m_slots ms : forall m, slot_ok m -> Forall slot_ok ms -> matches (rplus e_slot) (slot_text m ++ slots ms).
Proof.
  induction ms as [|m' ms IH]; intros m K F.
  - apply m_plus_one. exact (m_slot m false K).
  - inversion F; subst. change (slots (m' :: ms)) with ([124] ++ slot_text m' ++ slots ms). rewrite (app_assoc (slot_text m)). apply m_plus_more.
    + destruct (slot_text m); discriminate.
    + assert (N := slot_nil m' ltac:(assumption)). destruct (slot_text m'); [congruence|discriminate].
    + exact (m_slot m true K).
    + apply IH; assumption.
Qed.
Lemma m_chain l i m ms j k : inv_ok (WChain l i m ms j k) -> matches e_NB (inv_text (WChain l i m ms j k)).
Proof.
  cbn [inv_ok]. intros (A & B & C). inversion B; subst. unfold label in A.
  assert (E : inv_text (WChain l i m ms j k) = [if l then 10216 else 91] ++ dec i ++ [124] ++ (slot_text m ++ slots ms) ++ [124] ++ dec j ++ [if k then 10217 else 93]).
  { cbn [inv_text]. change (slots (m :: ms)) with ([124] ++ slot_text m ++ slots ms). rewrite <- !app_assoc. reflexivity. }
  rewrite E. unfold e_NB. apply m_seq; [apply m_chr; destruct l; reflexivity|]. apply m_seq; [apply m_num; lia|].
  apply m_seq; [apply m_chr; reflexivity|]. apply m_seq; [apply m_slots; assumption|]. apply m_seq; [apply m_chr; reflexivity|]. apply m_seq; [apply m_num; exact C|]. apply m_chr. destruct k; reflexivity.
Qed.
Lemma mid_of r u g : par r u g -> (forall c, chars r c = true -> mid c) -> Forall mid u.
Proof. intros H M. apply Forall_forall. intros c I. apply M. eapply par_chars; eassumption. Qed.
Lemma digs_mid u : digs u -> Forall mid u.
Proof. intros (_ & F). eapply Forall_impl; [|exact F]. intros c H. left. exact H. Qed.
Ltac midc H := cbn [chars rplus ropt rnum rc] in H; unfold is_sum, sep, cls in H; cbn [existsb] in H; rewrite ?orb_false_r, ?orb_true_iff, ?Z.eqb_eq, ?is_digit_iff in H; unfold mid; cbn; lia.
Lemma NB_inv u g : par e_NB u g -> exists c n1 md n2 k, u = c :: n1 ++ 124 :: md ++ 124 :: n2 ++ [k] /\ cls [60; 10216; 91] c = true /\ digs n1 /\ Forall mid md /\ digs n2 /\ ~ mid k.
Proof.
  intros H. unfold e_NB in H. apply par_RSeq in H. destruct H as (t & u1 & ? & ? & -> & _ & H1 & H). apply par_RChr in H1. destruct H1 as (c & -> & C & _).
  apply par_RSeq in H. destruct H as (n1 & u2 & ? & ? & -> & _ & H1 & H). apply par_rnum in H1. destruct H1 as (N1 & _).
  apply par_RSeq in H. destruct H as (t & u3 & ? & ? & -> & _ & H1 & H). apply par_rc in H1. destruct H1 as (-> & _).
  apply par_RSeq in H. destruct H as (md & u4 & ? & ? & -> & _ & H1 & H). fold e_slot in H1.
  apply par_RSeq in H. destruct H as (t & u5 & ? & ? & -> & _ & H2 & H). apply par_rc in H2. destruct H2 as (-> & _).
  apply par_RSeq in H. destruct H as (n2 & u6 & ? & ? & -> & _ & H2 & H). apply par_rnum in H2. destruct H2 as (N2 & _).
  apply par_RChr in H. destruct H as (k & -> & Kk & _). exists c, n1, md, n2, k. split; [reflexivity|]. split; [exact C|]. split; [exact N1|]. split.
  - eapply mid_of; [exact H1|]. intros xx Hx. unfold e_slot in Hx. midc Hx.
  - split; [exact N2|]. intros M. unfold cls in Kk. cbn [existsb] in Kk. rewrite orb_false_r, !orb_true_iff, !Z.eqb_eq in Kk. unfold mid in M. cbn in M. lia.
Qed.
Lemma NB_other c b s : ~ In c [60; 10216; 91] -> m_NB b (c :: s) = None.
Proof.
  intros N. unfold m_NB, m_re. cbn [anything]. destruct (find _ (tries e_NB (c :: s))) as [(g, r)|] eqn:E; [|reflexivity]. exfalso. apply find_some in E. destruct E as (I & _).
  apply tries_sound in I. destruct I as (p & E & P). apply NB_inv in P. destruct P as (c' & n1 & md & n2 & k & -> & C & _). injection E as -> _. apply N. unfold cls in C. cbn [existsb] in C. rewrite orb_false_r, !orb_true_iff, !Z.eqb_eq in C. cbn. intuition.
Qed.
Lemma ket_not_mid k : ket k -> ~ mid k. Proof. unfold ket, mid. cbn. lia. Qed.
Lemma NB_two bra b i j kt r : ket kt -> 0 <= i -> 0 <= j -> m_NB b (bra :: dec i ++ 124 :: dec j ++ kt :: r) = None.
Proof.
  intros Kt Hi Hj. unfold m_NB, m_re. cbn [anything]. destruct (find _ (tries e_NB _)) as [(g, q)|] eqn:E; [|reflexivity]. exfalso. apply find_some in E. destruct E as (I & _).
  apply tries_sound in I. destruct I as (p & E & P). apply NB_inv in P. destruct P as (c & n1 & md & n2 & k & -> & C & N1 & M & N2 & Kk). cbn [app] in E. injection E as -> E.
  repeat (rewrite <- app_assoc in E; cbn [app] in E).
  assert (X : (dec i ++ 124 :: dec j) ++ kt :: r = (n1 ++ 124 :: md ++ 124 :: n2) ++ k :: q) by (repeat (rewrite <- app_assoc; cbn [app]); exact E).
  assert (M124 : mid 124) by (right; cbn; tauto).
  apply (split_first mid) in X; [|apply ket_not_mid, Kt|exact Kk| |].
  - destruct X as (X & _ & _). apply (split_first dig) in X; [|discriminate|discriminate|apply dec_numeric, Hi|apply digs_numeric in N1; apply N1]. destruct X as (_ & _ & X).
    assert (Z : In 124 (dec j)) by (rewrite X; apply in_app_iff; right; left; reflexivity). eapply dec_in in Z; [|exact Hj]. lia.
  - apply Forall_app. split; [apply numeric_mid, dec_numeric, Hi|]. constructor; [exact M124|apply numeric_mid, dec_numeric, Hj].
  - apply Forall_app. split; [apply digs_mid, N1|]. constructor; [exact M124|]. apply Forall_app. split; [exact M|]. constructor; [exact M124|apply digs_mid, N2].
Qed.
Lemma NB_match l i m ms j k b r : inv_ok (WChain l i m ms j k) -> m_NB b (inv_text (WChain l i m ms j k) ++ r) = Some (length (inv_text (WChain l i m ms j k)), call (inv_text (WChain l i m ms j k))).
Proof.
  intros K. set (a := WChain l i m ms j k) in *. destruct (m_chain l i m ms j k K) as (g & G). fold a in G. apply (tries_complete _ _ _ r) in G.
  unfold m_NB, m_re. cbn [anything]. destruct (find _ (tries e_NB (inv_text a ++ r))) as [(h, q)|] eqn:E.
  - apply find_some in E. destruct E as (I & _). apply tries_sound in I. destruct I as (p & E & P). assert (Q : p = inv_text a).
    { apply NB_inv in P. destruct P as (c & n1 & md & n2 & k' & -> & C & N1 & M & N2 & Kk). unfold a in *. cbn [inv_ok] in K. destruct K as (K1 & K2 & K3). unfold label in K1.
      assert (M124 : mid 124) by (right; cbn; tauto).
      assert (X : inv_text (WChain l i m ms j k) = ((if l then 10216 else 91) :: dec i ++ slots (m :: ms) ++ 124 :: dec j) ++ [if k then 10217 else 93]).
      { cbn [inv_text]. cbn [app]. f_equal. rewrite <- !app_assoc. reflexivity. }
      rewrite X in *. clear X. assert (SM := slots_mid (m :: ms) K2). clear G K2. revert SM E. generalize (slots (m :: ms)). intros sl SM E. rewrite <- app_assoc in E. cbn [app] in E. injection E as <- E. f_equal.
      assert (X : (n1 ++ 124 :: md ++ 124 :: n2) ++ k' :: q = (dec i ++ sl ++ 124 :: dec j) ++ (if k then 10217 else 93) :: r).
      { rewrite E. repeat (rewrite <- app_assoc; cbn [app]). reflexivity. }
      apply (split_first mid) in X; [|exact Kk|apply ket_not_mid; destruct k; [left|right]; reflexivity| |].
      - destruct X as (X1 & -> & _). rewrite <- X1. cbn [app]. f_equal. repeat (rewrite <- app_assoc; cbn [app]). reflexivity.
      - apply Forall_app. split; [apply digs_mid, N1|]. constructor; [exact M124|]. apply Forall_app. split; [exact M|]. constructor; [exact M124|apply digs_mid, N2].
      - apply Forall_app. split; [apply numeric_mid, dec_numeric; lia|]. apply Forall_app. split; [exact SM|]. constructor; [exact M124|apply numeric_mid, dec_numeric, K3]. }
    subst p. apply app_inv_head in E. subst q. cbn [snd]. rewrite app_length. replace (length (inv_text a) + length r - length r)%nat with (length (inv_text a)) by lia. rewrite firstn_app'. reflexivity.
  - exfalso. eapply find_none in E; [|exact G]. discriminate E.
Qed.
Lemma pass_NB ts : Forall tok_ok ts -> (forall l t ts', ts = l ++ t :: ts' -> after true t (txt (st true 8) ts')) ->
  re_sub m_NB [] 0 (txt (st true 8) ts) = txt (st true 9) ts.
Proof.
  intros F A. apply (pass_wrap _ 8 true); [| |exact F|exact A].
  - intros a b r K R Af. destruct a; try discriminate R. apply NB_match, K.
  - intros t b r K _ X. assert (Hh : forall a b r' c s, t = TInv a -> inv_text a ++ r' = c :: s -> c = 10216 \/ c = 91 -> m_NB b (c :: s) = None).
    { intros a b' r' c s -> E C. specialize (X a eq_refl). destruct a as [i j|i j| |l i m ms j k| | | | | |]; cbn [inv_text] in E; try (exfalso; cbn in E; injection E as E1 E2; lia); cbn in K.
      - injection E as <- <-. repeat (rewrite <- app_assoc; cbn [app]). apply NB_two; [left; reflexivity|tauto|tauto].
      - injection E as <- <-. repeat (rewrite <- app_assoc; cbn [app]). apply NB_two; [right; reflexivity|tauto|tauto].
      - exfalso. apply X. reflexivity. }
    assert (Hc : forall b c s, ~ In c [10216; 91; 60] -> none m_NB b c s) by (intros b' c s N; apply NB_other; cbn in N |- *; tauto).
    apply each_tok; [exact K|intros b' c s N; apply Hc; cbn in N |- *; tauto| |].
    + intros a -> _. apply (each_inv _ r True); [intros; apply Hc; cbn; lia| |exact K|auto|].
      * intros b' c s (Q & Q1 & Q2 & Q3). apply Hc. cbn. unfold inv_char in Q. cbn in Q. lia.
      * intros c s C E. eapply Hh; [reflexivity|exact E|exact C].
    + intros a b0 -> _. apply (each_inv _ (39 :: 41 :: r) True); [intros; apply Hc; cbn; lia| |exact K|auto|].
      * intros b' c s (Q & Q1 & Q2 & Q3). apply Hc. cbn. unfold inv_char in Q. cbn in Q. lia.
      * intros c s C E. eapply Hh; [reflexivity|exact E|exact C].
Qed.
