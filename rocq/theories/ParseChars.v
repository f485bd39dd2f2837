(* Proofs about the textual replacements of _parse. *)
From Coq Require Import Ascii String.
From Coq Require Import List ZArith Bool Lia.
From Verif Require Import Base Str Symm Regex RegexThm Parse ParseSpec MassesThm GenThm.
Import ListNotations.
Open Scope Z_scope.

(* ---- re.sub ---- *)
Section Sub.
Variable m : pystr -> pystr -> option (nat * pystr).
Lemma sub_skip u : forall b r, re_sub m b (length u) (u ++ r) = re_sub m (rev u ++ b) 0 r.
Proof. induction u as [|c u IH]; intros b r; [reflexivity|]. cbn [length app re_sub rev]. rewrite IH, <- app_assoc. reflexivity. Qed.
Lemma sub_step b c r : m b (c :: r) = None -> re_sub m b 0 (c :: r) = c :: re_sub m (c :: b) 0 r.
Proof. intros H. cbn [re_sub]. rewrite H. reflexivity. Qed.
Lemma sub_match b u r repl : u <> [] -> m b (u ++ r) = Some (length u, repl) -> re_sub m b 0 (u ++ r) = repl ++ re_sub m (rev u ++ b) 0 r.
Proof.
  intros N H. destruct u as [|c u]; [congruence|]. cbn [app re_sub] in *. rewrite H. f_equal. cbn [pred length rev]. rewrite sub_skip, <- app_assoc. reflexivity.
Qed.
Lemma sub_plain u : (forall b c s, In c u -> m b (c :: s) = None) -> forall b r, re_sub m b 0 (u ++ r) = u ++ re_sub m (rev u ++ b) 0 r.
Proof.
  induction u as [|c u IH]; intros H b r; [reflexivity|]. cbn [app]. rewrite sub_step by (apply H; left; reflexivity).
  rewrite IH by (intros; apply H; right; assumption). cbn [rev]. rewrite <- app_assoc. reflexivity.
Qed.
End Sub.

(* ---- decimal strings ---- *)
Definition numeric (u : pystr) : Prop := Forall (fun c => is_digit c = true) u.
Lemma is_digit_iff c : is_digit c = true <-> 48 <= c <= 57.
Proof. unfold is_digit. rewrite andb_true_iff, !Z.leb_le. tauto. Qed.
Lemma dec_numeric n : 0 <= n -> numeric (dec n).
Proof. intros H. eapply Forall_impl; [|exact (dec_digits n H)]. intros c Hc. apply is_digit_iff, Hc. Qed.
Lemma digits_lead f : forall n acc, 0 < n < 10 ^ Z.of_nat f -> exists d ds, digits_fuel f n acc = d :: ds /\ d <> 0.
Proof.
  induction f; intros n acc H; cbn [digits_fuel]; [cbn in H; lia|].
  assert (M := Z.mod_pos_bound n 10 ltac:(lia)). assert (DM := Z.div_mod n 10 ltac:(lia)). destruct (Z.eqb_spec (n / 10) 0) as [E|E].
  - exists (n mod 10), acc. split; [reflexivity|lia].
  - apply IHf. assert (0 <= n / 10) by (apply Z.div_pos; lia). split; [lia|].
    apply Z.div_lt_upper_bound; [lia|]. rewrite <- Z.pow_succ_r by lia. rewrite <- Nat2Z.inj_succ. lia.
Qed.
Lemma dec_lead n : 0 < n -> exists d ds, dec n = d :: ds /\ d <> 48.
Proof.
  intros H. destruct (digits_lead (S (Z.to_nat n)) n []) as (d & ds & E & D).
  { split; [exact H|]. assert (P := pow10_ge (S (Z.to_nat n))). assert (E : Z.of_nat (S (Z.to_nat n)) = n + 1) by lia. rewrite E in *. lia. }
  exists (48 + d), (map (Z.add 48) ds). unfold dec, str. rewrite E. split; [reflexivity|lia].
Qed.
Lemma dec_cons n : 0 <= n -> exists d ds, dec n = d :: ds.
Proof.
  intros H. destruct (Z.eq_dec n 0) as [->|N]; [exists 48, []; reflexivity|]. destruct (dec_lead n ltac:(lia)) as (d & ds & E & _). eauto.
Qed.
Lemma dec_nil n : 0 <= n -> dec n <> [].
Proof. intros H. destruct (dec_cons n H) as (d & ds & ->). discriminate. Qed.
Lemma number_map l : forall a, fold_left (fun a c => 10 * a + (c - 48)) (map (Z.add 48) l) a = val a l.
Proof. induction l as [|d l IH]; intros a; [reflexivity|]. cbn [map fold_left val]. rewrite IH. f_equal. lia. Qed.
Lemma number_dec n : 0 <= n -> number (dec n) = n.
Proof. intros H. unfold number, dec. rewrite number_map. apply str_val, H. Qed.
Lemma literal_dec n : 0 <= n -> literal_ok (dec n) = true.
Proof.
  intros H. destruct (Z.eq_dec n 0) as [->|N]; [reflexivity|]. destruct (dec_lead n ltac:(lia)) as (d & ds & -> & D).
  destruct ds; [reflexivity|]. cbn [literal_ok]. rewrite (proj2 (Z.eqb_neq d 48) D). reflexivity.
Qed.
(* what follows does not continue the number *)
Definition stops (r : pystr) : Prop := match r with c :: _ => is_digit c = false | [] => True end.
Lemma digits_app u r : numeric u -> stops r -> digits (u ++ r) = u.
Proof.
  intros H S. induction H as [|c u Hc Hu IH]; cbn [app digits].
  - destruct r as [|c r]; [reflexivity|]. cbn [digits]. cbn in S. rewrite S. reflexivity.
  - rewrite Hc, IH. reflexivity.
Qed.
Lemma skipn_app' {A} (u r : list A) : skipn (length u) (u ++ r) = r.
Proof. induction u; cbn; auto. Qed.
Lemma firstn_app' {A} (u r : list A) : firstn (length u) (u ++ r) = u.
Proof. induction u; cbn; [destruct r; reflexivity|]. f_equal; auto. Qed.


(* ---- a condition at every position ---- *)
Fixpoint each (P : pystr -> Z -> pystr -> Prop) (b s r : pystr) : Prop :=
  match s with [] => True | c :: s' => P b c (s' ++ r) /\ each P (c :: b) s' r end.
Lemma each_app P u v r : forall b, each P b (u ++ v) r <-> each P b u (v ++ r) /\ each P (rev u ++ b) v r.
Proof.
  induction u as [|c u IH]; intros b; cbn [app each rev]; [tauto|]. rewrite IH, <- !app_assoc. cbn [app]. tauto.
Qed.
Lemma each_all (P : pystr -> Z -> pystr -> Prop) u r : (forall b c s, In c u -> P b c s) -> forall b, each P b u r.
Proof. induction u as [|c u IH]; intros H b; cbn [each]; [exact I|]. split; [apply H; left; reflexivity|]. apply IH. intros; apply H; right; assumption. Qed.
Lemma each_impl (P Q : pystr -> Z -> pystr -> Prop) u r : (forall b c s, P b c s -> Q b c s) -> forall b, each P b u r -> each Q b u r.
Proof. intros H. induction u as [|c u IH]; intros b; cbn [each]; [auto|]. intros [A B]. split; [apply H, A|apply IH, B]. Qed.
Definition none (m : pystr -> pystr -> option (nat * pystr)) (b : pystr) (c : Z) (s : pystr) : Prop := m b (c :: s) = None.
Lemma sub_each m u : forall b r, each (none m) b u r -> re_sub m b 0 (u ++ r) = u ++ re_sub m (rev u ++ b) 0 r.
Proof.
  induction u as [|c u IH]; intros b r H; [reflexivity|]. destruct H as [A B]. cbn [app]. rewrite sub_step by exact A. rewrite IH by exact B.
  cbn [rev]. rewrite <- app_assoc. reflexivity.
Qed.
(* a replacement of a text with a character that does not occur *)
Lemma sub_lit old new x u : In x old -> ~ In x u -> forall b, re_sub (m_lit old new) b 0 u = u.
Proof.
  intros I N b. assert (E : each (none (m_lit old new)) b u []).
  - revert N b. induction u as [|c u IH]; intros N b; cbn [each]; [exact Logic.I|]. split; [|apply IH; intros J; apply N; right; exact J].
    unfold none, m_lit. destruct (starts old (c :: u ++ [])) eqn:S; [|reflexivity]. exfalso. apply N. rewrite app_nil_r in S.
    revert S I. clear. generalize (c :: u). induction old as [|k old IH]; intros v S I; [destruct I|]. destruct v as [|d v]; [discriminate S|]. cbn [starts] in S. apply andb_true_iff in S. destruct S as [E S]. apply Z.eqb_eq in E. subst d.
    destruct I as [<-|I]; [left; reflexivity|right; apply IH; assumption].
  - apply sub_each in E. rewrite app_nil_r in E. rewrite E. cbn [re_sub]. apply app_nil_r.
Qed.

(* ---- symbols and their texts at the various stages ---- *)
Definition tok_ok (t : tok) : Prop := match t with TNum n => 0 <= n | TInv a => inv_ok a | _ => True end.
(* the order in which the invariants become calls *)
Definition rank (a : inv) : nat :=
  match a with Ang _ _ => 1 | Sq _ _ => 2 | Man _ => 3 | WOm _ => 4 | WPi _ => 5 | WTr5 _ _ | WTr5n _ => 6 | WTr _ _ => 7 | WDel _ _ _ => 8 | WChain _ _ _ _ _ _ => 9 end%nat.
(* p: powers as double stars; the invariants up to rank w as calls *)
Definition st (p : bool) (w : nat) (t : tok) : pystr :=
  match t with
  | TCaret => if p then [42; 42] else [94]
  | TInv a => if (rank a <=? w)%nat then call (inv_text a) else inv_text a
  | _ => tok_text t
  end.
Definition txt (f : tok -> pystr) (ts : list tok) : pystr := concat (map f ts).
Lemma txt_cons f t ts : txt f (t :: ts) = f t ++ txt f ts. Proof. reflexivity. Qed.
(* the first characters of symbols *)
Definition leads : list Z := [10216; 91; 115; 937; 928; 116; 916; 111; 40; 41; 43; 45; 42; 47; 94].
Definition num_end (t : tok) : bool := match t with TNum _ => true | TInv a => digit_end a | _ => false end.
Definition after (p : bool) (t : tok) (r : pystr) : Prop :=
  match r with c :: _ => (is_digit c = true \/ In c leads) /\ (p = true -> c <> 94) /\ (num_end t = true -> is_digit c = false) | [] => True end.
Lemma after_stops p t r : num_end t = true -> after p t r -> stops r.
Proof. intros N A. destruct r as [|c r]; [exact I|]. apply A, N. Qed.
Lemma pass m p f g : (forall t b r, tok_ok t -> after p t r -> re_sub m b 0 (f t ++ r) = g t ++ re_sub m (rev (f t) ++ b) 0 r) ->
  forall ts b, Forall tok_ok ts -> (forall l t ts', ts = l ++ t :: ts' -> after p t (txt f ts')) -> re_sub m b 0 (txt f ts) = txt g ts.
Proof.
  intros H. induction ts as [|t ts IH]; intros b F A; [reflexivity|]. rewrite !txt_cons, H.
  - f_equal. apply IH; [inversion F; assumption|]. intros l t' ts' ->. apply (A (t :: l) t' ts'). reflexivity.
  - inversion F; assumption.
  - apply (A [] t ts). reflexivity.
Qed.
Lemma numeric_in u c : numeric u -> In c u -> 48 <= c <= 57.
Proof. intros H I. apply is_digit_iff. exact (proj1 (Forall_forall _ _) H c I). Qed.
Lemma dec_in n c : 0 <= n -> In c (dec n) -> 48 <= c <= 57.
Proof. intros H. apply numeric_in, dec_numeric, H. Qed.

Ltac inl H := cbn in H; repeat (destruct H as [<-|H]); try contradiction.
Lemma In_call c u : In c (call u) <-> In c [111; 80; 115; 40; 39] \/ In c u \/ In c [39; 41].
Proof. unfold call. rewrite !in_app_iff. reflexivity. Qed.
(* the characters of invariants *)
Definition signs : list Z := [10216; 10217; 91; 93; 124; 115; 95; 43; 45; 40; 41; 116; 114; 937; 928; 916].
Definition inv_char (c : Z) : Prop := 48 <= c <= 57 \/ In c signs.
Ltac sign := right; cbn; tauto.
Lemma slot_chars m c : slot_ok m -> In c (slot_text m) -> (48 <= c <= 57) \/ In c [40; 41; 43; 45].
Proof.
  destruct m as [p i l]. cbn [slot_ok slot_text]. intros (A & B & _) I. unfold label in *. rewrite !in_app_iff in I. destruct I as [I|[I|[I|I]]].
  - destruct p; inl I; sign.
  - left. eapply dec_in; [|exact I]. lia.
  - apply in_concat in I. destruct I as (u & I & J). apply in_map_iff in I. destruct I as ((s, k) & <- & I). apply (proj1 (Forall_forall _ _) B) in I. cbn in I.
    destruct J as [<-|J]; [destruct s; sign|]. left. cbn [snd] in J. eapply dec_in; [|exact J]. lia.
  - destruct p; inl I; sign.
Qed.
Lemma slots_chars ms c : Forall slot_ok ms -> In c (slots ms) -> (48 <= c <= 57) \/ In c [40; 41; 43; 45; 124].
Proof.
  intros F I. unfold slots in I. apply in_concat in I. destruct I as (u & I & J). apply in_map_iff in I. destruct I as (m & <- & I). apply (proj1 (Forall_forall _ _) F) in I.
  destruct J as [<-|J]; [sign|]. apply slot_chars in J; [|exact I]. cbn in J |- *. tauto.
Qed.
Lemma blocks_chars ns c : Forall (fun k => 0 <= k <= 9999) ns -> In c (concat (map (fun k => barred (dec k)) ns)) -> (48 <= c <= 57) \/ c = 124.
Proof.
  intros F I. apply in_concat in I. destruct I as (u & I & J). apply in_map_iff in I. destruct I as (k & <- & I). apply (proj1 (Forall_forall _ _) F) in I. cbv beta in I.
  destruct J as [<-|J]; [right; reflexivity|]. left. eapply dec_in; [|exact J]. lia.
Qed.
Definition kind_chars (a : inv) : list Z :=
  match a with
  | Ang _ _ => [10216; 124; 10217] | Sq _ _ => [91; 124; 93] | Man _ => [115; 95]
  | WChain _ _ _ _ _ _ => [10216; 91; 10217; 93; 124; 40; 41; 43; 45]
  | WTr _ _ | WTr5 _ _ => [116; 114; 40; 41; 43; 45; 124] | WTr5n _ => [116; 114; 95]
  | WOm _ => [937; 95] | WPi _ => [928; 95] | WDel _ _ _ => [916; 95; 124]
  end.
Lemma inv_kind a c : inv_ok a -> In c (inv_text a) -> 48 <= c <= 57 \/ In c (kind_chars a).
Proof.
  intros K H. destruct a as [i j|i j|n|l i m ms j r|m ms|m ms|n|n|n|n m ns]; cbn [inv_ok] in K; cbn [inv_text] in H.
  - destruct H as [<-|H]; [sign|]. rewrite in_app_iff in H. cbn [In] in H. rewrite in_app_iff in H. destruct H as [H|[<-|[H|H]]]; try sign; try (left; eapply dec_in; [|exact H]; lia); inl H; sign.
  - destruct H as [<-|H]; [sign|]. rewrite in_app_iff in H. cbn [In] in H. rewrite in_app_iff in H. destruct H as [H|[<-|[H|H]]]; try sign; try (left; eapply dec_in; [|exact H]; lia); inl H; sign.
  - apply in_app_iff in H. destruct H as [H|H]; [inl H; sign|left; eapply dec_in; [|exact H]; lia].
  - destruct K as (A & B & C). unfold label in A. destruct H as [<-|H]; [destruct l; sign|]. rewrite !in_app_iff in H. cbn [In] in H. rewrite in_app_iff in H. destruct H as [H|[H|[<-|[H|H]]]]; try sign.
    + left; eapply dec_in; [|exact H]; lia.
    + apply slots_chars in H; [|exact B]. cbn in H |- *. tauto.
    + left; eapply dec_in; [|exact H]; lia.
    + destruct r; inl H; sign.
  - destruct K as (A & _). rewrite !in_app_iff in H. destruct H as [H|[H|[H|H]]]; [inl H; sign| | |inl H; sign].
    + apply slot_chars in H; [|inversion A; assumption]. cbn in H |- *. tauto.
    + apply slots_chars in H; [|inversion A; assumption]. cbn in H |- *. tauto.
  - destruct K as (A & _). rewrite !in_app_iff in H. destruct H as [H|[H|[H|H]]]; [| | |inl H; sign].
    + inl H; try sign. left; lia.
    + apply slot_chars in H; [|inversion A; assumption]. cbn in H |- *. tauto.
    + apply slots_chars in H; [|inversion A; assumption]. cbn in H |- *. tauto.
  - apply in_app_iff in H. destruct H as [H|H]; [inl H; try sign; left; lia|left; eapply dec_in; [|exact H]; lia].
  - destruct H as [<-|[<-|H]]; try sign. left; eapply dec_in; [|exact H]; lia.
  - destruct H as [<-|[<-|H]]; try sign. left; eapply dec_in; [|exact H]; lia.
  - destruct H as [<-|[<-|H]]; try sign. rewrite in_app_iff in H. inversion K; subst. destruct H as [H|H]; [left; eapply dec_in; [|exact H]; lia|]. apply blocks_chars in H; [|assumption]. destruct H as [H| ->]; [left; exact H|sign].
Qed.
Lemma inv_chars a c : inv_ok a -> In c (inv_text a) -> inv_char c.
Proof. intros K H. destruct (inv_kind a c K H) as [D|D]; [left; exact D|right]. destruct a; cbn in D |- *; tauto. Qed.
Lemma st_chars p w t c : tok_ok t -> In c (st p w t) ->
  match t with
  | TNum _ => 48 <= c <= 57
  | TInv x => inv_char c \/ (In c [111; 80; 115; 40; 39; 41])
  | TL => c = 40 | TR => c = 41 | TPlus => c = 43 | TMinus => c = 45 | TStar => c = 42 | TSlash => c = 47
  | TCaret => c = if p then 42 else 94
  end.
Proof.
  intros K H. destruct t as [n|x| | | | | | |]; cbn [st tok_text] in H; try (inl H; reflexivity).
  - eapply dec_in; [exact K|exact H].
  - destruct (rank x <=? w)%nat; [|left; eapply inv_chars; eassumption].
    apply In_call in H. destruct H as [G|[G|G]]; [|left; eapply inv_chars; eassumption|]; right; cbn in G |- *; tauto.
  - destruct p; inl H; reflexivity.
Qed.
Definition strange (c : Z) : Prop := ~ (48 <= c <= 57) /\ ~ In c signs /\ ~ In c [111; 80; 39; 42; 47; 94].
Lemma txt_strange p w ts c : strange c -> Forall tok_ok ts -> ~ In c (txt (st p w) ts).
Proof.
  intros (N1 & N2 & N3) F I. unfold txt in I. apply in_concat in I. destruct I as (u & I & J). apply in_map_iff in I. destruct I as (t & <- & I). apply (proj1 (Forall_forall _ _) F) in I.
  apply st_chars in J; [|exact I]. destruct t; unfold inv_char in J; try (subst c; cbn in N2, N3; tauto).
  - tauto.
  - cbn in N2, N3, J. tauto.
  - destruct p; subst c; cbn in N2, N3; tauto.
Qed.
Ltac strange := repeat split; [lia|cbn; lia|cbn; lia].
Lemma each_txt P f ts : (forall t b r, In t ts -> each P b (f t) r) -> forall b r, each P b (txt f ts) r.
Proof.
  induction ts as [|t ts IH]; intros H b r; [exact I|]. rewrite txt_cons. apply each_app. split; [apply H; left; reflexivity|]. apply IH. intros; apply H; right; assumption.
Qed.
(* the conditions that depend on what comes next *)
Lemma each_toks P p f ts : (forall t b r, tok_ok t -> after p t r -> each P b (f t) r) ->
  Forall tok_ok ts -> (forall l t ts', ts = l ++ t :: ts' -> after p t (txt f ts')) -> forall b, each P b (txt f ts) [].
Proof.
  intros H. induction ts as [|t ts IH]; intros F A b; [exact I|]. rewrite txt_cons. apply each_app. rewrite app_nil_r. split.
  - apply H; [inversion F; assumption|apply (A [] t ts); reflexivity].
  - apply IH; [inversion F; assumption|]. intros l t' ts' ->. apply (A (t :: l) t' ts'). reflexivity.
Qed.
Lemma pass_id m p f ts : (forall t b r, tok_ok t -> after p t r -> each (none m) b (f t) r) ->
  Forall tok_ok ts -> (forall l t ts', ts = l ++ t :: ts' -> after p t (txt f ts')) -> re_sub m [] 0 (txt f ts) = txt f ts.
Proof. intros H F A. apply (pass m p f f); [|exact F|exact A]. intros t b r K B. apply sub_each, H; assumption. Qed.
Lemma each_char (P : pystr -> Z -> pystr -> Prop) p w k t b r : (forall b c s, c <> k -> P b c s) -> tok_ok t -> strange k -> each P b (st p w t) r.
Proof.
  intros H K S. apply each_all. intros b' c s I. apply H. intros ->. apply (txt_strange p w [t] k S); [constructor; [exact K|constructor]|]. cbn. rewrite app_nil_r. exact I.
Qed.

(* ---- what stands around the bars ---- *)
Definition ket (c : Z) : Prop := c = 10217 \/ c = 93.
Definition mid (c : Z) : Prop := 48 <= c <= 57 \/ In c [40; 41; 43; 45; 124].
(* behind a bar *)
Inductive held : pystr -> Prop :=
| held_one d x b : is_digit d = true -> In x [40; 91; 10216; 43; 124; 45] -> held (d :: x :: b)
| held_par d x b : is_digit d = true -> In x [43; 45] -> held (41 :: d :: x :: b)
| held_num u x b : numeric u -> (1 <= length u <= 4)%nat -> x = 95 \/ x = 124 -> held (u ++ x :: b).
(* ahead of a bar, up to what follows the invariant *)
Definition runs (s r : pystr) : Prop := exists x, Forall mid x /\ (s = x ++ r \/ exists k, ket k /\ s = x ++ k :: r).
Definition next_ok (D : Prop) (s r : pystr) : Prop := exists u v, s = u ++ v /\ numeric u /\ (v = r /\ D \/ exists k v', v = k :: v' /\ In k [10217; 93; 124; 43; 45; 40; 41]).
Definition bar_at (D : Prop) (b s r : pystr) : Prop :=
  (held b \/ exists u k, numeric u /\ ket k /\ s = u ++ k :: r) /\ runs s r /\ next_ok D s r.
Lemma one_digit i : label i -> exists d, dec i = [d] /\ is_digit d = true.
Proof. unfold label. intros H. assert (C : i = 0 \/ i = 1 \/ i = 2 \/ i = 3 \/ i = 4 \/ i = 5 \/ i = 6 \/ i = 7 \/ i = 8 \/ i = 9) by lia. repeat (destruct C as [->|C]); subst; eexists; split; reflexivity. Qed.
Lemma few_digits k : 0 <= k <= 9999 -> (1 <= length (dec k) <= 4)%nat.
Proof.
  intros H. assert (N := dec_nil k ltac:(lia)). split; [destruct (dec k); [congruence|cbn; lia]|]. destruct (Z.eq_dec k 0) as [->|Z]; [cbn; lia|].
  destruct (dec_lead k ltac:(lia)) as (d & ds & E & D). assert (M := number_dec k ltac:(lia)). assert (F := dec_digits k ltac:(lia)). rewrite E in *. clear E N.
  unfold number in M. cbn [fold_left] in M. apply Forall_cons_iff in F. destruct F as [Fd Fs].
  destruct ds as [|d1 [|d2 [|d3 [|d4 ds]]]]; cbn [length]; try lia. exfalso.
  assert (X : forall l a, 1 <= a -> Forall (fun c => 48 <= c <= 57) l -> a <= fold_left (fun a c => 10 * a + (c - 48)) l a).
  { induction l as [|c l IH]; intros a A Fl; cbn [fold_left]; [lia|]. inversion Fl; subst. specialize (IH (10 * a + (c - 48)) ltac:(lia) ltac:(assumption)). lia. }
  apply Forall_cons_iff in Fs. destruct Fs as [F1 Fs]. apply Forall_cons_iff in Fs. destruct Fs as [F2 Fs]. apply Forall_cons_iff in Fs. destruct Fs as [F3 Fs]. apply Forall_cons_iff in Fs. destruct Fs as [F4 Fs].
  cbn [fold_left] in M. match type of M with fold_left _ ds ?a = _ => specialize (X ds a ltac:(lia) Fs) end. lia.
Qed.
