(* Proofs about the textual replacements of _parse: signs for the products. *)
From Coq Require Import Ascii String.
From Coq Require Import List ZArith Bool Lia.
From Verif Require Import Base Str Symm Regex RegexThm Parse ParseSpec MassesThm GenThm.
From Verif Require Export ParseOpen.
Import ListNotations.
Open Scope Z_scope.

(* ---- a sign between two neighbouring characters ---- *)
Section Pair.
Variables f g : Z -> bool.
Fixpoint sb (s : pystr) : pystr :=
  match s with
  | c :: r => match r with d :: _ => if f c && g d then c :: 42 :: sb r else c :: sb r | [] => [c] end
  | [] => []
  end.
Lemma sub_pair ok (Q : Z -> Prop) : (forall b, Forall Q b -> ok b = true) -> (forall d, g d = true -> f d = false) ->
  forall n s b, (length s <= n)%nat -> Forall Q b -> Forall Q s -> re_sub (m_pair ok f g) b 0 s = sb s.
Proof.
  intros O D. induction n as [|n IH]; intros s b L Fb Fs; [destruct s; [reflexivity|cbn in L; lia]|].
  destruct s as [|c [|d r]]; [reflexivity|reflexivity|]. inversion Fs as [|c' s' Hc Fs']; subst. inversion Fs' as [|d' r' Hd Fr]; subst.
  destruct (f c && g d) eqn:E.
  - assert (M := sub_match (m_pair ok f g) b [c; d] r [c; 42; d] ltac:(discriminate) ltac:(cbn [m_pair app]; rewrite (O b Fb); cbn [andb]; rewrite E; reflexivity)).
    cbn [app rev] in M. rewrite M. clear M.
    rewrite IH; [|cbn in L; lia| |exact Fr]; [|repeat constructor; assumption].
    apply andb_true_iff in E. destruct E as [E1 E2]. cbn [app]. cbn [sb]. rewrite E1, E2. cbn [andb]. destruct r as [|x r]; [reflexivity|]. rewrite (D d E2). reflexivity.
  - rewrite sub_step by (cbn [m_pair]; rewrite (O b Fb); cbn [andb]; rewrite E; reflexivity).
    rewrite IH by (try (cbn in L |- *; lia); try assumption; constructor; assumption). cbn [sb]. rewrite E. reflexivity.
Qed.
Lemma sb_app u v : u <> [] -> v <> [] -> sb (u ++ v) = sb u ++ (if f (last u 0) && g (hd 0 v) then [42] else []) ++ sb v.
Proof.
  intros U V. induction u as [|c u IH]; [congruence|]. destruct u as [|d u].
  - destruct v as [|d v]; [congruence|]. cbn [app last hd]. cbn [sb]. destruct (f c && g d); reflexivity.
  - cbn [app]. cbn [app] in IH. change (last (c :: d :: u) 0) with (last (d :: u) 0). cbn [sb]. cbn [sb] in IH. rewrite IH by discriminate. destruct (f c && g d); reflexivity.
Qed.
Fixpoint tstar (p : tok -> tok -> bool) (ts : list tok) : list tok :=
  match ts with
  | t :: r => match r with t' :: _ => if p t t' then t :: TStar :: tstar p r else t :: tstar p r | [] => [t] end
  | [] => []
  end.
Definition pc (h : tok -> pystr) (t t' : tok) : bool := f (last (h t) 0) && g (hd 0 (h t')).
Lemma sb_txt h ts : h TStar = [42] -> Forall (fun t => h t <> [] /\ sb (h t) = h t) ts -> sb (txt h ts) = txt h (tstar (pc h) ts).
Proof.
  intros S F. induction ts as [|t ts IH]; [reflexivity|]. inversion F as [|t' ts' [N E] F']; subst. destruct ts as [|t' ts].
  - cbn. rewrite app_nil_r. exact E.
  - rewrite txt_cons. rewrite sb_app; [|exact N|].
    + rewrite (IH F'), E. change (tstar (pc h) (t :: t' :: ts)) with (if pc h t t' then t :: TStar :: tstar (pc h) (t' :: ts) else t :: tstar (pc h) (t' :: ts)). unfold pc at 2. inversion F' as [|t'' ts'' [N' E'] F'']; subst.
      assert (H : hd 0 (txt h (t' :: ts)) = hd 0 (h t')) by (rewrite txt_cons; destruct (h t'); [congruence|reflexivity]). rewrite H.
      destruct (f (last (h t) 0) && g (hd 0 (h t'))); rewrite ?txt_cons, ?S; reflexivity.
    + inversion F' as [|t'' ts'' [N' E'] F'']; subst. rewrite txt_cons. destruct (h t'); [congruence|discriminate].
Qed.
End Pair.
Lemma tstar_ext p p' ts : (forall l t t' r, ts = l ++ t :: t' :: r -> p t t' = p' t t') -> tstar p ts = tstar p' ts.
Proof.
  induction ts as [|t [|t' ts] IH]; intros H; [reflexivity|reflexivity|]. cbn [tstar] in *. rewrite (H [] t t' ts eq_refl). rewrite IH; [reflexivity|].
  intros l a b r E. apply (H (t :: l) a b r). rewrite E. reflexivity.
Qed.
Lemma tstar_head p t r : exists r', tstar p (t :: r) = t :: r'.
Proof. destruct r as [|t' r]; [exists []; reflexivity|]. cbn [tstar]. destruct (p t t'); eauto. Qed.
Lemma tstar_tstar p p2 ts : (forall t, p2 t TStar = false) -> (forall t, p2 TStar t = false) -> tstar p2 (tstar p ts) = tstar (fun t t' => p t t' || p2 t t') ts.
Proof.
  intros H1 H2. induction ts as [|t [|t' ts] IH]; [reflexivity|reflexivity|].
  assert (E : tstar p (t :: t' :: ts) = t :: (if p t t' then [TStar] else []) ++ tstar p (t' :: ts)) by (cbn [tstar]; destruct (p t t'); reflexivity).
  assert (E' : tstar (fun t t' => p t t' || p2 t t') (t :: t' :: ts) = t :: (if p t t' || p2 t t' then [TStar] else []) ++ tstar (fun t t' => p t t' || p2 t t') (t' :: ts)) by (cbn [tstar]; destruct (p t t' || p2 t t'); reflexivity).
  rewrite E, E', <- IH. destruct (tstar_head p t' ts) as [r' ->]. destruct (p t t'); cbn [app orb].
  - change (tstar p2 (t :: TStar :: t' :: r')) with (if p2 t TStar then t :: TStar :: tstar p2 (TStar :: t' :: r') else t :: tstar p2 (TStar :: t' :: r')). rewrite H1.
    change (tstar p2 (TStar :: t' :: r')) with (if p2 TStar t' then TStar :: TStar :: tstar p2 (t' :: r') else TStar :: tstar p2 (t' :: r')). rewrite H2. reflexivity.
  - change (tstar p2 (t :: t' :: r')) with (if p2 t t' then t :: TStar :: tstar p2 (t' :: r') else t :: tstar p2 (t' :: r')). destruct (p2 t t'); reflexivity.
Qed.

Notation f4 := (st true 9).
(* no such neighbours *)
Fixpoint nb (f g : Z -> bool) (u : pystr) : Prop := match u with c :: r => match r with d :: _ => f c && g d = false /\ nb f g r | [] => True end | [] => True end.
Section Nb.
Variables f g : Z -> bool.
Notation nb := (nb f g).
Lemma nb_sb u : nb u -> sb f g u = u.
Proof. induction u as [|c [|d u] IH]; [reflexivity|reflexivity|]. intros (E & H). specialize (IH H). cbn [sb] in *. rewrite E, IH. reflexivity. Qed.
Lemma nb_nog s : Forall (fun c => g c = false) (tl s) -> nb s.
Proof.
  destruct s as [|c s]; [reflexivity|]. cbn [tl]. revert c. induction s as [|d s IH]; intros c F; [exact I|]. inversion F as [|d' s' Hd F']; subst. split; [rewrite Hd, andb_false_r; reflexivity|apply IH, F'].
Qed.
Lemma nb_nof s : Forall (fun c => f c = false) s -> nb s.
Proof. induction 1 as [|c s Hc F IH]; [exact I|]. destruct s as [|d s]; [exact I|]. split; [rewrite Hc; reflexivity|exact IH]. Qed.
Lemma nb_app u v : nb u -> nb v -> (u <> [] -> v <> [] -> f (last u 0) && g (hd 0 v) = false) -> nb (u ++ v).
Proof.
  intros U V H. induction u as [|c u IH]; [exact V|]. destruct u as [|d u].
  - cbn [app]. destruct v as [|d v]; [exact I|]. split; [apply H; discriminate|exact V].
  - destruct U as (E & U). split; [exact E|]. apply IH; [exact U|]. intros _. apply H. discriminate.
Qed.
Lemma nb_app_f u v : nb u -> nb v -> f (last u 0) = false -> nb (u ++ v).
Proof. intros U V H. apply nb_app; [exact U|exact V|]. intros _ _. rewrite H. reflexivity. Qed.
Lemma nb_app_g u v : nb u -> nb v -> g (hd 0 v) = false -> nb (u ++ v).
Proof. intros U V H. apply nb_app; [exact U|exact V|]. intros _ _. rewrite H. apply andb_false_r. Qed.
Lemma nb_each ok u r : nb u -> (u <> [] -> r <> [] -> f (last u 0) && g (hd 0 r) = false) -> forall b, each (none (m_pair ok f g)) b u r.
Proof.
  induction u as [|c u IH]; intros H L b; [exact I|]. cbn [each]. split.
  - unfold none, m_pair. destruct u as [|d u]; cbn [app].
    + destruct r as [|d r]; [reflexivity|]. specialize (L ltac:(discriminate) ltac:(discriminate)). cbn [last hd] in L. rewrite <- andb_assoc, L, andb_false_r. reflexivity.
    + destruct H as (E & _). rewrite <- andb_assoc, E, andb_false_r. reflexivity.
  - destruct u as [|d u]; [exact I|]. apply IH; [apply H|]. intros _. apply L. discriminate.
Qed.
Lemma nb_slots ms : (forall m, slot_ok m -> nb (slot_text m)) -> f 124 = false -> g 124 = false -> Forall slot_ok ms -> nb (slots ms).
Proof.
  intros H F1 G1 F. induction F as [|m ms K F IH]; [exact I|]. change (slots (m :: ms)) with ([124] ++ slot_text m ++ slots ms). apply nb_app_f; [exact I| |exact F1].
  apply nb_app; [apply H, K|exact IH|]. intros _ N. destruct ms as [|m' ms]; [exfalso; apply N; reflexivity|]. change (hd 0 (slots (m' :: ms))) with 124. rewrite G1. apply andb_false_r.
Qed.
Lemma nb_chain l i m ms j k : inv_ok (WChain l i m ms j k) -> (forall m, slot_ok m -> nb (slot_text m)) -> (forall u, numeric u -> nb u) -> f 124 = false -> g 124 = false -> (forall c, c = 10216 \/ c = 91 -> f c = false) -> (forall c, ket c -> g c = false) ->
  nb (inv_text (WChain l i m ms j k)).
Proof.
  cbn [inv_ok]. intros (A & B & C) Hs Hn F1 G1 F2 G2. unfold label in A.
  assert (E : inv_text (WChain l i m ms j k) = [if l then 10216 else 91] ++ dec i ++ slots (m :: ms) ++ [124] ++ dec j ++ [if k then 10217 else 93]) by reflexivity. rewrite E.
  apply nb_app_f; [exact I| |apply F2; destruct l; tauto]. apply nb_app_g; [apply Hn, dec_numeric; lia| |exact G1]. apply nb_app_g; [apply nb_slots; assumption| |exact G1].
  apply nb_app_f; [exact I| |exact F1]. apply nb_app_g; [apply Hn, dec_numeric, C|exact I|]. apply G2. destruct k; [left|right]; reflexivity.
Qed.
End Nb.
Lemma not_in_false k u : ~ In k u -> Forall (fun c => is_c k c = false) u.
Proof. intros N. apply Forall_forall. intros c I. apply Z.eqb_neq. intros ->. contradiction. Qed.
Lemma in_tl {A} (x : A) u : In x (tl u) -> In x u. Proof. destruct u; [tauto|right; assumption]. Qed.
(* digits before a letter *)
Lemma nb_A k a : k = 115 \/ k = 111 -> inv_ok a -> nb is_digit (is_c k) (inv_text a).
Proof.
  intros Hk K. apply nb_nog, not_in_false. intros I. destruct (match a with Man _ => true | _ => false end) eqn:E.
  - destruct a; try discriminate E. cbn in K. change (tl (inv_text (Man n))) with (95 :: dec n) in I. destruct I as [I|I]; [lia|]. eapply dec_in in I; [|exact K]. lia.
  - apply in_tl, inv_kind in I; [|exact K]. destruct a; try discriminate E; cbn in I; lia.
Qed.
Lemma slot_tl40 m : slot_ok m -> ~ In 40 (tl (slot_text m)).
Proof.
  destruct m as [p i l]. cbn [slot_ok]. intros (A & B & C). assert (X : ~ In 40 (dec i ++ concat (map signed l) ++ (if p then [41] else []))).
  { intros I. rewrite !in_app_iff in I. unfold label in A. destruct I as [I|[I|I]]; [eapply dec_in in I; lia| |destruct p; [cbn in I; lia|destruct I]].
    apply in_concat in I. destruct I as (u & I & J). apply in_map_iff in I. destruct I as ((s, k) & <- & I). apply (proj1 (Forall_forall _ _) B) in I. cbn [snd] in I. unfold label in I. unfold signed in J. cbn [fst snd In] in J. destruct J as [J|J]; [destruct s; discriminate J|]. apply dec_in in J; [lia|]. lia. }
  destruct p; cbn [slot_text]; cbn [app] in *; [exact X|]. intros I. apply X. apply in_tl. exact I.
Qed.
(* digits before a parenthesis *)
Lemma nb_num40 u : numeric u -> nb is_digit (is_c 40) u.
Proof. intros N. apply nb_nog, not_in_false. intros I. apply in_tl in I. eapply numeric_in in I; [|exact N]. lia. Qed.
Lemma nb_args40 m ms : Forall slot_ok (m :: ms) -> Forall bare (m :: ms) -> nb is_digit (is_c 40) (slot_text m ++ slots ms ++ [41]).
Proof.
  intros F B. apply nb_nog, not_in_false. intros I. apply in_tl in I. rewrite app_assoc in I. apply in_app_iff in I. destruct I as [I|I]; [|cbn in I; lia].
  apply (proj1 (Forall_forall _ _) (args_sum m ms F B)) in I. discriminate I.
Qed.
Lemma nb_B a : inv_ok a -> (match a with WTr5 _ _ => False | _ => True end) -> nb is_digit (is_c 40) (inv_text a).
Proof.
  intros K N5. destruct (match a with WChain _ _ _ _ _ _ | WTr _ _ => true | _ => false end) eqn:E.
  - destruct a as [| | |l i m ms j k|m ms| | | | |]; try discriminate E.
    + apply nb_chain; [exact K| |exact nb_num40|reflexivity|reflexivity|intros c [-> | ->]; reflexivity|intros c [-> | ->]; reflexivity].
      intros m' Hm. apply nb_nog, not_in_false, slot_tl40, Hm.
    + cbn [inv_text]. apply nb_app_f; [cbn; tauto|apply nb_args40; apply K|reflexivity].
  - apply nb_nog, not_in_false. intros I. apply in_tl, inv_kind in I; [|exact K]. destruct a; try discriminate E; try contradiction; cbn in I; lia.
Qed.
(* closing parentheses before something *)
Lemma nb_41 g u x : ~ In 41 u -> nb (is_c 41) g (u ++ [x]).
Proof.
  intros N. apply nb_app; [apply nb_nof, not_in_false, N|exact I|]. intros Nu _. destruct (exists_last Nu) as (v & c & ->). rewrite last_last. unfold is_c at 1. replace (c =? 41) with false; [reflexivity|]. symmetry. apply Z.eqb_neq. intros ->. apply N. apply in_app_iff. right. left. reflexivity.
Qed.
Lemma nb_no41 g u : ~ In 41 u -> nb (is_c 41) g u. Proof. intros N. apply nb_nof, not_in_false, N. Qed.
Lemma slot_body41 i l : label i -> Forall (fun x => label (snd x)) l -> ~ In 41 (dec i ++ concat (map signed l)).
Proof.
  intros A B I. unfold label in A. rewrite in_app_iff in I. destruct I as [I|I]; [eapply dec_in in I; lia|].
  apply in_concat in I. destruct I as (u & I & J). apply in_map_iff in I. destruct I as ((s, k) & <- & I). apply (proj1 (Forall_forall _ _) B) in I. cbn [snd] in I. unfold label in I. unfold signed in J. cbn [fst snd In] in J. destruct J as [J|J]; [destruct s; discriminate J|]. apply dec_in in J; [lia|]. lia.
Qed.
Lemma nb_slot41 g m : slot_ok m -> nb (is_c 41) g (slot_text m).
Proof.
  destruct m as [p i l]. cbn [slot_ok slot_text]. intros (A & B & _). assert (X := slot_body41 i l A B). destruct p.
  - rewrite (app_assoc (dec i)), app_assoc. apply nb_41. rewrite in_app_iff. intros [I|I]; [cbn in I; lia|exact (X I)].
  - rewrite app_nil_r. apply nb_no41. exact X.
Qed.
Lemma args_no41 m ms : Forall slot_ok (m :: ms) -> Forall bare (m :: ms) -> ~ In 41 (slot_text m ++ slots ms).
Proof. intros F B I. apply (proj1 (Forall_forall _ _) (args_sum m ms F B)) in I. discriminate I. Qed.
Lemma nb_C g a : inv_ok a -> g 124 = false -> (forall c, ket c -> g c = false) -> nb (is_c 41) g (inv_text a).
Proof.
  intros K G1 G2. destruct (match a with WChain _ _ _ _ _ _ | WTr _ _ | WTr5 _ _ => true | _ => false end) eqn:E.
  - destruct a as [| | |l i m ms j k|m ms|m ms| | | |]; try discriminate E.
    + apply nb_chain; [exact K|intros m' Hm; apply nb_slot41, Hm| |reflexivity|exact G1|intros c [-> | ->]; reflexivity|exact G2]. intros u N. apply nb_no41. intros I. eapply numeric_in in I; [|exact N]. lia.
    + cbn [inv_text]. rewrite (app_assoc (slot_text m)), app_assoc. apply nb_41. rewrite in_app_iff. intros [I|I]; [cbn in I; lia|exact (args_no41 m ms (proj1 K) (proj2 K) I)].
    + cbn [inv_text]. rewrite (app_assoc (slot_text m)), app_assoc. apply nb_41. rewrite in_app_iff. intros [I|I]; [cbn in I; lia|exact (args_no41 m ms (proj1 K) (proj2 K) I)].
  - apply nb_no41. intros I. apply inv_kind in I; [|exact K]. destruct a; try discriminate E; cbn in I; lia.
Qed.
Lemma nb_call f g u : nb f g u -> f 111 = false -> f 80 = false -> f 115 = false -> f 40 = false -> f 39 = false -> g 39 = false -> nb f g (call u).
Proof.
  intros H F1 F2 F3 F4 F5 G. unfold call. apply nb_app_f; [|apply nb_app_g; [exact H| |exact G]|exact F5].
  - change (lit "oPs('") with [111; 80; 115; 40; 39]. apply nb_nof. repeat constructor; assumption.
  - change (lit "')") with [39; 41]. cbn. rewrite F5. tauto.
Qed.
Lemma f4_inv a : f4 (TInv a) = call (inv_text a). Proof. cbn [st]. rewrite rank9. reflexivity. Qed.
Lemma f4_nil t : tok_ok t -> f4 t <> [].
Proof. intros K. destruct t as [n|a| | | | | | |]; try discriminate. - apply dec_nil, K. - rewrite f4_inv. discriminate. Qed.
Lemma call_eq u : call u = ([111; 80; 115; 40; 39] ++ u ++ [39]) ++ [41].
Proof. unfold call. rewrite <- !app_assoc. reflexivity. Qed.
Lemma sb_digit k t : k = 115 \/ k = 111 -> tok_ok t -> sb is_digit (is_c k) (f4 t) = f4 t.
Proof.
  intros Hk K. apply nb_sb. destruct t as [n|a| | | | | | |]; try (cbn; tauto).
  - cbn [st tok_text]. apply nb_nog, not_in_false. intros I. apply in_tl in I. eapply dec_in in I; [|exact K]. lia.
  - rewrite f4_inv. apply nb_call; try reflexivity; [apply nb_A; assumption|]. destruct Hk as [-> | ->]; reflexivity.
Qed.
Lemma sb_close g t : In g [is_digit; is_c 40; is_c 111] -> tok_ok t -> sb (is_c 41) g (f4 t) = f4 t.
Proof.
  intros G K. apply nb_sb. destruct t as [n|a| | | | | | |]; try (cbn; tauto).
  - cbn [st tok_text]. apply nb_no41. intros I. eapply dec_in in I; [|exact K]. lia.
  - rewrite f4_inv. apply nb_call; try reflexivity; [apply nb_C; [exact K| |intros c [-> | ->]]|]; inl G; reflexivity.
Qed.
(* ---- neighbouring symbols ---- *)
Definition is_E (t : tok) : bool := match t with TNum _ | TInv _ | TR => true | _ => false end.
Definition is_S (t : tok) : bool := match t with TNum _ | TInv _ | TL => true | _ => false end.
Definition is_sgn (t : tok) : bool := match t with TPlus | TMinus => true | _ => false end.
Definition is_num (t : tok) : bool := match t with TNum _ => true | _ => false end.
(* after an operand comes an operator or a closing parenthesis, otherwise an operand or a sign *)
Definition okpair (t t' : tok) : bool := if is_E t then negb (is_S t') else is_S t' || is_sgn t'.
Definition touchp (t t' : tok) : bool := is_E t && is_S t' && negb (is_num t && is_num t').
Definition rawpair (t t' : tok) : bool := (okpair t t' || touchp t t') && match t, t' with TInv a, TNum _ => negb (digit_end a) | _, _ => true end.
Definition adj (R : tok -> tok -> bool) (ts : list tok) : Prop := forall l t t' r, ts = l ++ t :: t' :: r -> R t t' = true.
Lemma adj_tl R t ts : adj R (t :: ts) -> adj R ts.
Proof. intros H l a b r ->. apply (H (t :: l) a b r). reflexivity. Qed.
Lemma adj_hd R t t' ts : adj R (t :: t' :: ts) -> R t t' = true.
Proof. intros H. apply (H [] t t' ts). reflexivity. Qed.
Lemma adj_cons (R : tok -> tok -> bool) t t' ts : R t t' = true -> adj R (t' :: ts) -> adj R (t :: t' :: ts).
Proof. intros H A l a b r E. destruct l as [|x l]; cbn in E; injection E; intros; subst; [assumption|]. apply (A l a b r). assumption. Qed.
Lemma adj_one R t : adj R [t]. Proof. intros [|x [|y l]] a b r E; discriminate E. Qed.
Lemma adj_app (R : tok -> tok -> bool) l1 x y l2 : adj R (l1 ++ [x]) -> adj R (y :: l2) -> R x y = true -> adj R (l1 ++ x :: y :: l2).
Proof.
  intros A B H. induction l1 as [|a l1 IH]; [apply adj_cons; assumption|]. specialize (IH (adj_tl _ _ _ A)). destruct l1 as [|b l1]; cbn [app] in *.
  - apply adj_cons; [|exact IH]. exact (adj_hd _ _ _ _ A).
  - apply adj_cons; [|exact IH]. exact (adj_hd _ _ _ _ A).
Qed.
Lemma last_in (u : pystr) : u <> [] -> In (last u 0) u.
Proof. intros N. destruct (exists_last N) as (v & c & ->). rewrite last_last. apply in_app_iff. right; left; reflexivity. Qed.
Lemma hd_in (u : pystr) : u <> [] -> In (hd 0 u) u. Proof. destruct u; [congruence|]. left. reflexivity. Qed.
Lemma dec_last n : 0 <= n -> is_digit (last (dec n) 0) = true.
Proof. intros H. apply (proj1 (Forall_forall _ _) (dec_numeric n H)), last_in, dec_nil, H. Qed.
Lemma dec_hd n : 0 <= n -> is_digit (hd 0 (dec n)) = true.
Proof. intros H. apply (proj1 (Forall_forall _ _) (dec_numeric n H)), hd_in, dec_nil, H. Qed.
Lemma f4_last t : tok_ok t -> match t with TNum _ => is_digit (last (f4 t) 0) = true | TInv _ | TR => last (f4 t) 0 = 41 | _ => is_digit (last (f4 t) 0) = false /\ last (f4 t) 0 <> 41 end.
Proof.
  intros K. destruct t as [n|a| | | | | | |]; try (split; [reflexivity|discriminate]); try reflexivity; [apply dec_last, K|]. rewrite f4_inv, call_eq, last_last. reflexivity.
Qed.
Lemma f4_hd t : tok_ok t -> match t with TNum _ => is_digit (hd 0 (f4 t)) = true | TInv _ => hd 0 (f4 t) = 111 | TL => hd 0 (f4 t) = 40 | _ => In (hd 0 (f4 t)) [41; 43; 45; 42; 47] end.
Proof. intros K. destruct t as [n|a| | | | | | |]; try (cbn; tauto); [apply dec_hd, K|]. rewrite f4_inv. reflexivity. Qed.
Definition num_inv (t t' : tok) : bool := match t, t' with TNum _, TInv _ => true | _, _ => false end.
Definition p_none (t t' : tok) := false.
Definition p_par (t t' : tok) := match t, t' with TNum _, TL => true | _, _ => false end.
Definition p_close_num (t t' : tok) := match t, t' with TR, TNum _ | TInv _, TNum _ => true | _, _ => false end.
Definition p_close_par (t t' : tok) := match t, t' with TR, TL | TInv _, TL => true | _, _ => false end.
Definition p_close_inv (t t' : tok) := match t, t' with TR, TInv _ | TInv _, TInv _ => true | _, _ => false end.
Lemma digit_not c k : is_digit c = true -> is_digit k = false -> is_c k c = false.
Proof. intros H1 H2. unfold is_c. apply Z.eqb_neq. intros ->. congruence. Qed.
Lemma pc_eq f g p : In (f, g, p) [(is_digit, is_c 115, p_none); (is_digit, is_c 111, num_inv); (is_digit, is_c 40, p_par); (is_c 41, is_digit, p_close_num); (is_c 41, is_c 40, p_close_par); (is_c 41, is_c 111, p_close_inv)] ->
  forall t t', tok_ok t -> tok_ok t' -> pc f g f4 t t' = p t t'.
Proof.
  intros I t t' K K'. unfold pc. assert (L := f4_last t K). assert (H := f4_hd t' K'). set (x := last (f4 t) 0) in *. set (y := hd 0 (f4 t')) in *. clearbody x y.
  assert (E : forall c k, c <> k -> is_c k c = false) by (intros c k Hck; apply Z.eqb_neq; exact Hck).
  cbn [In] in I. repeat (destruct I as [I|I]; [injection I as <- <- <-|]); [..|contradiction];
    destruct t, t'; cbn [p_none num_inv p_par p_close_num p_close_par p_close_inv]; cbn in H;
    repeat match goal with X : _ /\ _ |- _ => destruct X end;
    repeat match goal with X : ?a = true |- context [?a] => rewrite X | X : ?a = false |- context [?a] => rewrite X end; subst;
    try reflexivity; try (rewrite andb_false_r; reflexivity);
    try (rewrite (digit_not y) by (assumption || reflexivity); try rewrite andb_false_r; reflexivity);
    try (rewrite (digit_not x) by (assumption || reflexivity); reflexivity);
    try (rewrite (E x 41) by assumption; reflexivity);
    try (repeat (destruct H as [<-|H]); try contradiction; rewrite ?andb_false_r; reflexivity).
Qed.
Lemma tstar_ok p ts : Forall tok_ok ts -> Forall tok_ok (tstar p ts).
Proof.
  induction ts as [|t [|t' ts] IH]; intros F; try exact F. inversion F; subst. cbn [tstar]. specialize (IH ltac:(assumption)).
  destruct (p t t'); repeat constructor; try assumption; exact IH.
Qed.
Lemma pair_pass f g p : In (f, g, p) [(is_digit, is_c 115, p_none); (is_digit, is_c 111, num_inv); (is_c 41, is_digit, p_close_num); (is_c 41, is_c 40, p_close_par); (is_c 41, is_c 111, p_close_inv)] ->
  forall ts, Forall tok_ok ts -> re_sub (m_pair anything f g) [] 0 (txt f4 ts) = txt f4 (tstar p ts).
Proof.
  intros I ts F. rewrite (sub_pair f g anything (fun _ => True)) with (n := length (txt f4 ts)).
  - rewrite sb_txt.
    + f_equal. apply tstar_ext. intros l t t' r ->. apply Forall_app in F. destruct F as [_ F]. inversion F as [|? ? A F']; subst. inversion F' as [|? ? B F'']; subst. apply (pc_eq f g p); [cbn in I |- *; tauto|exact A|exact B].
    + reflexivity.
    + eapply Forall_impl; [|exact F]. intros t K. split; [apply f4_nil, K|].
      cbn [In] in I. repeat (destruct I as [I|I]; [injection I as <- <- <-|]); [..|contradiction]; try (apply sb_close; [cbn; tauto|exact K]); (apply sb_digit; [tauto|exact K]).
  - reflexivity.
  - intros d. cbn [In] in I. repeat (destruct I as [I|I]; [injection I as <- <- <-|]); [..|contradiction]; unfold is_c, is_digit; rewrite ?andb_true_iff, ?Z.leb_le, ?Z.eqb_eq, ?andb_false_iff, ?Z.leb_gt, ?Z.eqb_neq; lia.
  - lia.
  - constructor.
  - apply Forall_forall. intros; exact Logic.I.
Qed.
(* a number before a parenthesis, but not the 5 of tr5 *)
Notation m_par := (m_pair not_tr is_digit (is_c 40)).
Lemma par_inv a b r : inv_ok a -> each (none m_par) b (call (inv_text a)) r.
Proof.
  intros K. destruct (match a with WTr5 _ _ => true | _ => false end) eqn:E.
  - destruct a as [| | | | |m ms| | | |]; try discriminate E. unfold call. apply each_app. split; [apply nb_each; [cbn; tauto|intros _ _; reflexivity]|]. apply each_app. split; [|apply nb_each; [cbn; tauto|intros _ _; reflexivity]].
    cbn [inv_text]. apply each_app. split.
    { change (lit "tr5(") with ([116; 114] ++ [53] ++ [40]). apply each_app. split; [apply nb_each; [cbn; tauto|intros _ _; reflexivity]|]. apply each_app. split; [cbn; split; [reflexivity|exact I]|apply nb_each; [cbn; tauto|intros _ _; reflexivity]]. }
    apply nb_each; [apply nb_args40; apply K|]. intros _ _. rewrite andb_comm. reflexivity.
  - apply nb_each.
    + apply nb_call; try reflexivity. apply nb_B; [exact K|]. destruct a; try exact I; discriminate E.
    + intros _ _. rewrite call_eq, last_last. reflexivity.
Qed.
Lemma pass_par ts : forall b, hd 0 b <> 114 -> Forall tok_ok ts -> re_sub m_par b 0 (txt f4 ts) = txt f4 (tstar p_par ts).
Proof.
  induction ts as [ts IH] using (well_founded_induction (Wf_nat.well_founded_ltof _ (@length tok))). intros b Hb F. unfold Wf_nat.ltof in IH.
  destruct ts as [|t ts]; [reflexivity|]. inversion F as [|t1 ts1 Ht F']; subst. rewrite txt_cons.
  assert (Z : (exists n ts', t = TNum n /\ ts = TL :: ts') \/ p_par t (hd TStar ts) = false). { destruct t as [n| | | | | | | |]; try (right; reflexivity). destruct ts as [|[] ts']; try (right; reflexivity). left. eauto. }
  destruct Z as [(n & ts' & -> & ->)|Z].
  - change (f4 (TNum n)) with (dec n). cbn in Ht. inversion F' as [|? ? _ F'']; subst. rewrite txt_cons. change (f4 TL) with [40]. cbn [app].
    assert (D := dec_numeric n Ht). destruct (exists_last (dec_nil n Ht)) as (v & d & E). rewrite E in *. apply Forall_app in D. destruct D as [Dv Dd]. inversion Dd as [|? ? Hd _]; subst.
    rewrite <- app_assoc. cbn [app]. rewrite sub_each.
    + change (d :: 40 :: txt f4 ts') with ([d; 40] ++ txt f4 ts'). rewrite (sub_match m_par _ [d; 40] (txt f4 ts') [d; 42; 40]); [|discriminate|].
      * rewrite IH; [|cbn; lia|cbn; discriminate|exact F'']. change (tstar p_par (TNum n :: TL :: ts')) with (TNum n :: TStar :: tstar p_par (TL :: ts')). rewrite !txt_cons.
        assert (T : tstar p_par (TL :: ts') = TL :: tstar p_par ts') by (destruct ts'; reflexivity). rewrite T, txt_cons. change (f4 (TNum n)) with (dec n). rewrite E. rewrite <- app_assoc. reflexivity.
      * cbn [app m_pair]. rewrite Hd. replace (not_tr (rev v ++ b)) with true; [reflexivity|]. symmetry. unfold not_tr.
        assert (X : hd 0 (rev v ++ b) <> 114). { destruct (rev v) as [|x y] eqn:Er; [exact Hb|]. cbn [app hd]. intros ->. assert (In 114 v) by (apply in_rev; rewrite Er; left; reflexivity). eapply numeric_in in H; [|exact Dv]. lia. }
        destruct (rev v ++ b) as [|x y]; [reflexivity|]. cbn [hd] in X. cbn [starts]. rewrite (proj2 (Z.eqb_neq 114 x)) by congruence. reflexivity.
    + apply nb_each; [apply nb_num40, Dv|]. intros _ _. cbn [hd]. unfold is_c. rewrite (proj2 (Z.eqb_neq d 40)); [apply andb_false_r|]. intros ->. discriminate Hd.
  - assert (T : tstar p_par (t :: ts) = t :: tstar p_par ts) by (destruct ts as [|t' ts]; [reflexivity|]; cbn [hd] in Z; cbn [tstar]; rewrite Z; reflexivity). rewrite T, txt_cons.
    assert (L : hd 0 (rev (f4 t) ++ b) <> 114).
    { assert (La := f4_last t Ht). assert (N := f4_nil t Ht). destruct (exists_last N) as (u & c & E). rewrite E in *. rewrite last_last in La. rewrite rev_app_distr. cbn [rev app hd]. intros ->. assert (J : In 114 (f4 t)) by (rewrite E; apply in_app_iff; right; left; reflexivity). apply st_chars in J; [|exact Ht]. destruct t; try discriminate La; discriminate J. }
    rewrite sub_each; [rewrite IH; [reflexivity|cbn; lia|exact L|exact F']|].
    destruct t as [n|a| | | | | | |]; try (apply nb_each; [cbn; tauto|intros _ _; reflexivity]).
    + apply nb_each; [apply nb_num40, dec_numeric, Ht|]. intros _ N. destruct ts as [|t' ts]; [exfalso; apply N; reflexivity|]. rewrite txt_cons. inversion F' as [|? ? K' _]; subst. assert (H := f4_hd t' K'). assert (N' := f4_nil t' K').
      assert (X : hd 0 (f4 t' ++ txt f4 ts) = hd 0 (f4 t')) by (destruct (f4 t'); [congruence|reflexivity]). rewrite X. unfold is_c. rewrite (proj2 (Z.eqb_neq (hd 0 (f4 t')) 40)); [apply andb_false_r|]. intros Y. rewrite Y in H. destruct t'; try discriminate H; try (cbn in H; lia); discriminate Z.
    + rewrite f4_inv. apply par_inv, Ht.
Qed.

(* ---- numbers before calls ---- *)
Notation f3 := (st true 3).
Lemma oPs_b s : forall b b' k, re_sub m_oPs b k s = re_sub m_oPs b' k s.
Proof.
  induction s as [|c s IH]; intros b b' k; [reflexivity|]. cbn [re_sub]. destruct k as [|k]; [|apply IH]. change (m_oPs b (c :: s)) with (m_oPs b' (c :: s)). destruct (m_oPs b' (c :: s)) as [(n, u)|]; f_equal; apply IH.
Qed.
Lemma last_none k : forall s, (forall j, (1 <= j <= k)%nat -> starts (lit "oPs") (skipn j s) = false) -> last_oPs k s = None.
Proof. induction k as [|k IH]; intros s H; [reflexivity|]. cbn [last_oPs]. rewrite (H (S k)) by lia. apply IH. intros; apply H; lia. Qed.
Lemma alnums_app u r : Forall (fun c => is_alnum c = true) u -> alnums (u ++ r) = (length u + alnums r)%nat.
Proof. induction 1 as [|c u H F IH]; [reflexivity|]. cbn [app alnums length]. rewrite H, IH. reflexivity. Qed.
Lemma alnums_stop u r : (alnums (u ++ r) < length u)%nat \/ Forall (fun c => is_alnum c = true) u.
Proof. induction u as [|c u IH]; [right; constructor|]. cbn [app alnums length]. destruct (is_alnum c) eqn:E; [|left; lia]. destruct IH as [IH|IH]; [left; lia|right; constructor; assumption]. Qed.
Lemma starts_hd s : hd 0 s <> 111 -> starts (lit "oPs") s = false.
Proof. destruct s as [|c s]; [reflexivity|]. intros H. cbn [hd] in H. change (lit "oPs") with [111; 80; 115]. cbn [starts]. rewrite (proj2 (Z.eqb_neq 111 c)) by congruence. reflexivity. Qed.
Lemma hd_skipn j (s : pystr) : hd 0 (skipn j s) = nth j s 0.
Proof. revert s. induction j; intros [|c s]; try reflexivity. cbn. apply IHj. Qed.
(* no o among the first letters and digits *)
Definition calm (r : pystr) : Prop := forall j, (j < alnums r)%nat -> nth j r 0 <> 111.
Lemma calm_le r : calm r -> forall j, (j <= alnums r)%nat -> nth j r 0 <> 111.
Proof.
  intros C j J. destruct (Nat.eq_dec j (alnums r)) as [->|N]; [|apply C; lia]. clear. induction r as [|c r IH]; [discriminate|]. cbn [alnums]. destruct (is_alnum c) eqn:E; [exact IH|]. cbn. intros ->. discriminate E.
Qed.
Lemma quiet2 u r : ~ In 111 (tl u) -> (calm r \/ is_alnum (last u 0) = false) -> forall b, each (none m_oPs) b u r.
Proof.
  induction u as [|c u IH]; intros N C b; [exact I|]. cbn [tl] in N. cbn [each]. split.
  - unfold none, m_oPs. rewrite last_none; [reflexivity|]. intros j J. apply starts_hd. rewrite hd_skipn. destruct j as [|i]; [lia|]. cbn [nth]. cbn [alnums] in J. destruct (is_alnum c) eqn:Ec; [|lia].
    destruct (Nat.lt_ge_cases i (length u)) as [L|L].
    + rewrite app_nth1 by exact L. intros E. apply N. rewrite <- E. apply nth_In, L.
    + rewrite app_nth2 by exact L. destruct (alnums_stop u r) as [S|S]; [lia|]. rewrite alnums_app in J by exact S. destruct C as [C|C]; [apply calm_le; [exact C|lia]|].
      exfalso. destruct u as [|d u]; [cbn in C; congruence|]. assert (X : In (last (d :: u) 0) (d :: u)) by (apply last_in; discriminate). apply (proj1 (Forall_forall _ _) S) in X. cbv beta in X. change (last (c :: d :: u) 0) with (last (d :: u) 0) in C. congruence.
  - destruct u as [|d u]; [exact I|]. apply IH; [intros X; apply N, in_tl, X|]. exact C.
Qed.
Lemma alnum_digit c : is_digit c = true -> is_alnum c = true. Proof. unfold is_alnum. intros ->. reflexivity. Qed.
Lemma oPs_num k x b b' : 0 <= k -> re_sub m_oPs b 0 (dec k ++ 111 :: 80 :: 115 :: 40 :: x) = dec k ++ 42 :: re_sub m_oPs b' 0 (111 :: 80 :: 115 :: 40 :: x).
Proof.
  intros Hk. assert (E : re_sub m_oPs b' 0 (111 :: 80 :: 115 :: 40 :: x) = 111 :: 80 :: 115 :: re_sub m_oPs (115 :: 80 :: 111 :: b') 0 (40 :: x)) by reflexivity. rewrite E. clear E.
  change (111 :: 80 :: 115 :: 40 :: x) with ([111; 80; 115] ++ 40 :: x). rewrite app_assoc. rewrite (sub_match m_oPs b (dec k ++ [111; 80; 115]) (40 :: x) (dec k ++ lit "*oPs")).
  - rewrite <- app_assoc. change (lit "*oPs" ++ ?y) with (42 :: 111 :: 80 :: 115 :: y). do 5 f_equal. apply oPs_b.
  - destruct (dec k); discriminate.
  - unfold m_oPs. assert (A : Forall (fun c => is_alnum c = true) (dec k)) by (eapply Forall_impl; [|apply dec_numeric, Hk]; intros c; apply alnum_digit).
    rewrite alnums_app.
    2:{ apply Forall_app. split; [exact A|repeat constructor]. }
    replace (alnums (40 :: x)) with 0%nat by reflexivity. rewrite <- app_assoc. rewrite app_length. cbn [length].
    replace (length (dec k) + 3 + 0)%nat with (S (S (S (length (dec k))))) by lia.
    assert (X : forall j v, skipn (length (dec k) + j) (dec k ++ v) = skipn j v) by (intros j v; rewrite skipn_app, skipn_all2 by lia; cbn [app]; f_equal; lia).
    assert (L : forall j v, last_oPs (S j) v = if starts (lit "oPs") (skipn (S j) v) then Some (S j) else last_oPs j v) by reflexivity.
    rewrite L. replace (S (S (S (length (dec k))))) with (length (dec k) + 3)%nat at 1 by lia. rewrite X. cbn [skipn app]. change (starts (lit "oPs") (40 :: x)) with false. cbv iota.
    rewrite L. replace (S (S (length (dec k)))) with (length (dec k) + 2)%nat at 1 by lia. rewrite X. cbn [skipn app]. change (starts (lit "oPs") (115 :: 40 :: x)) with false. cbv iota.
    rewrite L. replace (S (length (dec k))) with (length (dec k) + 1)%nat at 1 by lia. rewrite X. cbn [skipn app]. change (starts (lit "oPs") (80 :: 115 :: 40 :: x)) with false. cbv iota.
    destruct (dec_cons k Hk) as (d & ds & Ed). rewrite Ed. cbn [length]. rewrite L. change (S (length ds)) with (length (d :: ds)). rewrite skipn_app'.
    change (starts (lit "oPs") (111 :: 80 :: 115 :: 40 :: x)) with true. cbv iota. rewrite firstn_app'. reflexivity.
Qed.
Definition ends_num (t : tok) : bool := match t with TNum _ => true | TInv a => digit_end a && negb (rank a <=? 3)%nat | _ => false end.
Definition is_call (t : tok) : bool := match t with TInv b => (rank b <=? 3)%nat | _ => false end.
Definition num_call (t t' : tok) : bool := ends_num t && is_call t'.
Lemma st3_tl t : tok_ok t -> ~ In 111 (tl (f3 t)).
Proof.
  intros K I. destruct t as [n|a| | | | | | |]; cbn [st tok_text] in I; try (cbn in I; lia).
  - apply in_tl in I. eapply dec_in in I; [|exact K]. lia.
  - assert (X : ~ In 111 (inv_text a)) by (intros J; apply inv_chars in J; [|exact K]; unfold inv_char in J; cbn in J; lia).
    destruct (rank a <=? 3)%nat; [|apply X, in_tl, I]. unfold call in I. change (lit "oPs('" ++ inv_text a ++ lit "')") with (111 :: [80; 115; 40; 39] ++ inv_text a ++ [39; 41]) in I. cbn [tl] in I. rewrite !in_app_iff in I. destruct I as [I|[I|I]]; [cbn in I; lia|exact (X I)|cbn in I; lia].
Qed.
Lemma del_form n m ns : exists pre k, inv_text (WDel n m ns) = (pre ++ [124]) ++ dec k /\ In k (m :: ns).
Proof.
  cbn [inv_text]. destruct (@exists_last _ (m :: ns) ltac:(discriminate)) as (l & k & E). rewrite E. rewrite map_app, concat_app. cbn [map concat]. rewrite app_nil_r. unfold barred at 2.
  exists (916 :: 95 :: dec n ++ concat (map (fun k => barred (dec k)) l)), k. split; [|apply in_app_iff; right; left; reflexivity]. rewrite <- app_assoc. cbn [app]. do 2 f_equal. rewrite <- app_assoc. reflexivity.
Qed.
Lemma num_form t : tok_ok t -> ends_num t = true -> exists pre k, f3 t = pre ++ dec k /\ 0 <= k /\ (pre = [] \/ is_alnum (last pre 0) = false).
Proof.
  intros K E. destruct t as [n|a| | | | | | |]; try discriminate E.
  - exists [], n. split; [reflexivity|]. split; [exact K|left; reflexivity].
  - cbn [ends_num] in E. apply andb_true_iff in E. destruct E as [D R]. cbn [st]. destruct (rank a <=? 3)%nat; [discriminate R|]. cbn in K. destruct a as [| | | | | |n|n|n|n m ns]; try discriminate D; try discriminate R.
    + exists [115; 95], n. split; [reflexivity|]. split; [exact K|right; reflexivity].
    + exists (lit "tr5_"), n. split; [reflexivity|]. split; [exact K|right; reflexivity].
    + exists [937; 95], n. split; [reflexivity|]. split; [exact K|right; reflexivity].
    + exists [928; 95], n. split; [reflexivity|]. split; [exact K|right; reflexivity].
    + destruct (del_form n m ns) as (pre & k & E & Ik). exists (pre ++ [124]), k. split; [exact E|]. inversion K as [|? ? K1 K2]; subst. apply (proj1 (Forall_forall _ _) K2) in Ik. cbv beta in Ik. split; [lia|right; rewrite last_last; reflexivity].
Qed.
Lemma inv_last a : inv_ok a -> digit_end a = false -> exists u c, inv_text a = u ++ [c] /\ is_alnum c = false.
Proof.
  intros K D. destruct a as [i j|i j| |l i m ms j k|m ms|m ms| | | |]; try discriminate D; cbn [inv_text].
  - exists (10216 :: dec i ++ 124 :: dec j), 10217. split; [cbn [app]; rewrite <- app_assoc; reflexivity|reflexivity].
  - exists (91 :: dec i ++ 124 :: dec j), 93. split; [cbn [app]; rewrite <- app_assoc; reflexivity|reflexivity].
  - exists ((if l then 10216 else 91) :: dec i ++ slots (m :: ms) ++ 124 :: dec j), (if k then 10217 else 93). split; [cbn [app]; rewrite <- !app_assoc; reflexivity|destruct k; reflexivity].
  - exists (lit "tr(" ++ slot_text m ++ slots ms), 41. split; [rewrite <- !app_assoc; reflexivity|reflexivity].
  - exists (lit "tr5(" ++ slot_text m ++ slots ms), 41. split; [rewrite <- !app_assoc; reflexivity|reflexivity].
Qed.
Lemma quiet_last t : tok_ok t -> ends_num t = false -> is_alnum (last (f3 t) 0) = false.
Proof.
  intros K E. destruct t as [n|a| | | | | | |]; try discriminate E; try reflexivity. cbn [ends_num] in E. cbn [st]. destruct (rank a <=? 3)%nat; [rewrite call_eq, last_last; reflexivity|]. rewrite andb_true_r in E.
  destruct (inv_last a K E) as (u & c & -> & C). rewrite last_last. exact C.
Qed.
Lemma calm_0 r : (match r with c :: _ => is_alnum c = false | [] => True end) -> calm r.
Proof. intros H j J. destruct r as [|c r]; [cbn in J; lia|]. cbn in J. rewrite H in J. lia. Qed.
Lemma calm_next t ts : tok_ok t -> is_num t = false -> is_call t = false -> calm (txt f3 (t :: ts)).
Proof.
  intros K N C. rewrite txt_cons. destruct t as [n|a| | | | | | |]; try discriminate N; try (apply calm_0; reflexivity). cbn [is_call] in C. cbn [st]. rewrite C.
  destruct a as [i j|i j|n|l i m ms j k|m ms|m ms|n|n|n|n m ns]; try discriminate C; try (apply calm_0; reflexivity).
  - apply calm_0. cbn [inv_text app]. destruct l; reflexivity.
  - intros j J. change (alnums _) with 2%nat in J. destruct j as [|[|j]]; [discriminate|discriminate|lia].
  - intros j J. change (alnums _) with 3%nat in J. destruct j as [|[|[|j]]]; [discriminate|discriminate|discriminate|lia].
  - intros j J. change (alnums _) with 3%nat in J. destruct j as [|[|[|j]]]; [discriminate|discriminate|discriminate|lia].
Qed.
Lemma pass_oPs ts : Forall tok_ok ts -> adj rawpair ts -> re_sub m_oPs [] 0 (txt f3 ts) = txt f3 (tstar num_call ts).
Proof.
  generalize (@nil Z) at 1. induction ts as [|t ts IH]; intros b F A; [reflexivity|]. inversion F as [|? ? K F']; subst. rewrite txt_cons. specialize (fun b => IH b F' (adj_tl _ _ _ A)).
  destruct ts as [|t' ts].
  - cbn [tstar]. rewrite txt_cons. rewrite sub_each; [reflexivity|]. apply quiet2; [apply st3_tl, K|]. left. intros j J. cbn in J. lia.
  - inversion F' as [|? ? K' _]; subst. assert (R := adj_hd _ _ _ _ A). destruct (num_call t t') eqn:E.
    + change (tstar num_call (t :: t' :: ts)) with (if num_call t t' then t :: TStar :: tstar num_call (t' :: ts) else t :: tstar num_call (t' :: ts)). rewrite E, !txt_cons. apply andb_true_iff in E. destruct E as [E1 E2].
      destruct (num_form t K E1) as (pre & k & Ef & Hk & Hp). rewrite Ef. destruct t' as [|a| | | | | | |]; try discriminate E2. rewrite <- (IH []). rewrite !txt_cons. cbn [is_call] in E2.
      assert (X : f3 (TInv a) = 111 :: 80 :: 115 :: 40 :: 39 :: inv_text a ++ [39; 41]) by (cbn [st]; rewrite E2; reflexivity). rewrite X. cbn [app]. rewrite <- !app_assoc. rewrite sub_each.
      * rewrite (oPs_num k _ _ []) by exact Hk. reflexivity.
      * destruct Hp as [->|Hp]; [exact I|]. apply quiet2; [|right; exact Hp]. intros J. apply (st3_tl t K). rewrite Ef. destruct pre; [destruct J|]. cbn [app tl] in *. apply in_app_iff. left. exact J.
    + change (tstar num_call (t :: t' :: ts)) with (if num_call t t' then t :: TStar :: tstar num_call (t' :: ts) else t :: tstar num_call (t' :: ts)). rewrite E, txt_cons. rewrite sub_each; [rewrite IH; reflexivity|].
      apply quiet2; [apply st3_tl, K|]. destruct (ends_num t) eqn:E1; [|right; apply quiet_last; assumption]. left. unfold num_call in E. rewrite E1 in E. apply calm_next; [exact K'| |exact E].
      destruct (is_num t') eqn:N; [|reflexivity]. exfalso. destruct t'; try discriminate N. destruct t as [|a| | | | | | |]; try discriminate E1; [discriminate R|]. cbn [ends_num] in E1. apply andb_true_iff in E1. destruct E1 as [E1 _]. unfold rawpair in R. rewrite E1 in R. cbn in R. discriminate R.
Qed.
(* ---- all of it ---- *)
Lemma st_hd p w t : tok_ok t -> exists c u, st p w t = c :: u /\ (is_digit c = true \/ In c leads) /\ (p = true -> c <> 94) /\ (is_digit c = true -> is_num t = true).
Proof.
  intros K. destruct t as [n|a| | | | | | |]; try (eexists; eexists; split; [reflexivity|]; split; [right; cbn; tauto|split; [intros _; discriminate|intros X; discriminate X]]).
  - cbn [st tok_text]. cbn in K. destruct (dec_cons n K) as (d & ds & E). exists d, ds. split; [exact E|]. assert (J := dec_numeric n K). rewrite E in J. inversion J as [|? ? D _]; subst. split; [left; exact D|split; [intros _ ->; discriminate D|reflexivity]].
  - cbn [st]. destruct (rank a <=? w)%nat; [eexists; eexists; split; [reflexivity|]; split; [right; cbn; tauto|split; [intros _; discriminate|intros X; discriminate X]]|].
    destruct a as [i j|i j|n|l i m ms j k|m ms|m ms|n|n|n|n m ns]; try (eexists; eexists; split; [reflexivity|]; split; [right; cbn; tauto|split; [intros _; discriminate|intros X; discriminate X]]).
    eexists; eexists; split; [reflexivity|]. destruct l; (split; [right; cbn; tauto|split; [intros _; discriminate|intros X; discriminate X]]).
  - destruct p; (eexists; eexists; split; [reflexivity|]; split; [right; cbn; tauto|split; [intros X; first [discriminate X|discriminate]|intros X; discriminate X]]).
Qed.
Lemma after_adj p w ts : Forall tok_ok ts -> adj rawpair ts -> forall l t ts', ts = l ++ t :: ts' -> after p t (txt (st p w) ts').
Proof.
  intros F A l t ts' ->. apply Forall_app in F. destruct F as [_ F]. inversion F as [|? ? K F']; subst. destruct ts' as [|t' r]; [exact I|].
  inversion F' as [|? ? K' F'']; subst. assert (P : rawpair t t' = true) by (apply (A l t t' r); reflexivity). destruct (st_hd p w t' K') as (c & u & E & H1 & H2 & H3). rewrite txt_cons, E. cbn [app after].
  split; [exact H1|]. split; [exact H2|]. intros N. destruct (is_digit c) eqn:D; [|reflexivity]. specialize (H3 eq_refl). exfalso. destruct t'; try discriminate H3. destruct t as [|a| | | | | | |]; try discriminate N; [discriminate P|]. cbn in N. unfold rawpair in P. rewrite N in P. cbn in P. discriminate P.
Qed.
Lemma tstar_adj (p : tok -> tok -> bool) ts : (forall t t', p t t' = true -> rawpair t TStar = true /\ rawpair TStar t' = true) -> adj rawpair ts -> adj rawpair (tstar p ts).
Proof.
  intros H. induction ts as [|t [|t' ts] IH]; intros A; try exact A. specialize (IH (adj_tl _ _ _ A)). destruct (tstar_head p t' ts) as (r' & E). cbn [tstar] in *. rewrite E in *. destruct (p t t') eqn:P.
  - destruct (H t t' P). apply adj_cons; [assumption|]. apply adj_cons; assumption.
  - apply adj_cons; [exact (adj_hd _ _ _ _ A)|exact IH].
Qed.
Lemma num_call_adj t t' : num_call t t' = true -> rawpair t TStar = true /\ rawpair TStar t' = true.
Proof. unfold num_call. intros H. apply andb_true_iff in H. destruct H as [H1 H2]. destruct t; try discriminate H1; destruct t'; try discriminate H2; split; reflexivity. Qed.
Lemma clean_id ts : Forall tok_ok ts -> parse_clean (txt (st false 0) ts) = txt (st false 0) ts.
Proof.
  intros F. assert (N := fun c H => txt_strange false 0 ts c H F). unfold parse_clean. cbv zeta.
  rewrite (sub_lit [8722] _ 8722) by (try (cbn; tauto); apply N; strange). rewrite (sub_lit (lit "\scriptscriptstyle") _ 92) by (try (cbn; tauto); apply N; strange).
  rewrite (sub_lit [60] _ 60) by (try (cbn; tauto); apply N; strange). rewrite (sub_lit [62] _ 62) by (try (cbn; tauto); apply N; strange).
  rewrite (sub_lit (lit "\frac{") _ 92) by (try (cbn; tauto); apply N; strange). rewrite (sub_lit (lit "}{") _ 123) by (try (cbn; tauto); apply N; strange).
  rewrite (sub_lit (lit "}+\") _ 92) by (try (cbn; tauto); apply N; strange). rewrite (sub_lit [10] _ 10) by (try (cbn; tauto); apply N; strange).
  rewrite (sub_lit [32] _ 32) by (try (cbn; tauto); apply N; strange). apply pass_end, F.
Qed.
Lemma spins_id ts : Forall tok_ok ts -> adj rawpair ts -> parse_spins (txt (st true 0) ts) = txt (st true 0) ts.
Proof.
  intros F A. assert (Af := after_adj true 0 ts F A). unfold parse_spins. cbv zeta.
  assert (C : forall l c, cls l c = true -> In c l) by (intros l c; apply cls_in). assert (C1 : forall k c, is_c k c = true -> c = k) by (intros k c; apply Z.eqb_eq).
  do 4 (rewrite (pass_id _ true) by (first [exact F|exact Af|intros t b r K B; apply pass_spin; [exact K|exact B|intros c X; first [apply C in X|apply C1 in X]; cbn in X |- *; lia|intros c X; apply C in X; cbn in X |- *; lia]])).
  apply (sub_lit _ _ 64); [cbn; tauto|]. apply txt_strange; [strange|exact F].
Qed.
Lemma open_id ts : Forall tok_ok ts -> adj rawpair ts -> parse_open (txt f4 ts) = txt f4 ts.
Proof.
  intros F A. assert (Af := after_adj true 9 ts F A). unfold parse_open. cbv zeta.
  assert (C : forall l c, cls l c = true -> In c l) by (intros l c; apply cls_in). assert (C1 : forall k c, is_c k c = true -> c = k) by (intros k c; apply Z.eqb_eq).
  rewrite (pass_id _ true) by (first [exact F|exact Af|intros t b r K B; apply pass_bra; [intros c X; apply C in X; cbn in X |- *; lia|exact K]]).
  rewrite (pass_id _ true) by (first [exact F|exact Af|intros t b r K B; apply pass_ket; [intros c X; apply C in X; cbn in X; unfold mid; cbn; lia|exact K]]).
  rewrite (pass_id _ true) by (first [exact F|exact Af|intros t b r K B; apply pass_bra; [intros c X; apply C1 in X; cbn; lia|exact K]]).
  rewrite (pass_id _ true) by (first [exact F|exact Af|intros t b r K B; apply pass_ket; [intros c X; apply C1 in X; unfold mid; cbn; lia|exact K]]).
  rewrite (pass_id _ true) by (first [exact F|exact Af|intros t b r K B; apply pass_begin, K]).
  rewrite (pass_id _ true) by (first [exact F|exact Af|intros t b r K B; apply pass_open_end, K]).
  rewrite (pass_id _ true) by (first [exact F|exact Af|intros t b r K B; apply pass_double, K]).
  rewrite (pass_id _ true) by (first [exact F|exact Af|intros t b r K B; apply pass_double_dot, K]). reflexivity.
Qed.
(* everything up to the fractions *)
Theorem parse_stars ts : Forall tok_ok ts -> adj rawpair ts -> py_parse (txt tok_text ts) = re_sub m_block [] 0 (re_sub m_rat [] 0 (txt f4 (tstar touchp ts))).
Proof.
  intros F A. unfold py_parse. cbv zeta.
  assert (E0 : txt tok_text ts = txt (st false 0) ts) by (unfold txt; f_equal; apply map_ext; intros [|[]| | | | | | |]; reflexivity). rewrite E0.
  rewrite clean_id by exact F. rewrite (pass m_pow false _ (st true 0) pass_pow) by (try exact F; apply after_adj; assumption).
  rewrite (pass_strange m_braces true 0 ts [123]); [|intros b c s N; apply braces_other; cbn in N; lia|constructor; [strange|constructor]|exact F].
  rewrite spins_id by assumption.
  rewrite (pass_id _ true) by (first [exact F|apply after_adj; assumption|intros t b r K _; apply pass_bis; [lia|exact K]]).
  rewrite (pass_two 10216 10217 0) by (try exact F; try lia; apply after_adj; assumption).
  rewrite (pass_id _ true) by (first [exact F|apply after_adj; assumption|intros t b r K _; apply pass_bis; [lia|exact K]]).
  rewrite (pass_two 91 93 1) by (try exact F; try lia; apply after_adj; assumption).
  rewrite pass_s by (try exact F; apply after_adj; assumption).
  rewrite (pass_strange m_mass true 3 ts [109; 77]); [|intros b c s N; apply mass_other; cbn in N; lia|repeat (constructor; [strange|]); constructor|exact F].
  rewrite pass_oPs by assumption.
  assert (F2 := tstar_ok num_call ts F). assert (A2 := tstar_adj num_call ts num_call_adj A). revert F2 A2. generalize (eq_refl (tstar num_call ts)). generalize (tstar num_call ts) at -1. intros ts2 E2 F2 A2.
  rewrite (pass_strange m_mvar true 3 ts2 [109; 77; 956]); [|intros b c s N; apply mvar_other; cbn in N; lia|repeat (constructor; [strange|]); constructor|exact F2].
  rewrite (pass_pre 937 3) by (try exact F2; try lia; apply after_adj; assumption). rewrite (pass_pre 928 4) by (try exact F2; try lia; apply after_adj; assumption).
  rewrite pass_tr5 by (try exact F2; apply after_adj; assumption). rewrite pass_tr by (try exact F2; apply after_adj; assumption).
  rewrite (pass_id m_Dadj true) by (first [exact F2|apply after_adj; assumption|intros t b r K _; apply pass_Dadj, K]).
  rewrite pass_Dnon by (try exact F2; apply after_adj; assumption). rewrite pass_NB by (try exact F2; apply after_adj; assumption).
  rewrite open_id by assumption. rewrite (sub_lit (lit "sqrt") _ 113); [|cbn; tauto|apply txt_strange; [strange|exact F2]].
  subst ts2. clear F2 A2.
  rewrite (pair_pass _ _ p_none) by (try (apply tstar_ok, F); cbn; tauto). rewrite tstar_tstar by reflexivity.
  rewrite (pair_pass _ _ num_inv) by (try (apply tstar_ok, F); cbn; tauto). rewrite tstar_tstar by (intros []; reflexivity).
  rewrite pass_par by (try (apply tstar_ok, F); cbn; discriminate). rewrite tstar_tstar by (intros []; reflexivity).
  rewrite (pair_pass _ _ p_close_num) by (try (apply tstar_ok, F); cbn; tauto). rewrite tstar_tstar by (intros []; reflexivity).
  rewrite (pair_pass _ _ p_close_par) by (try (apply tstar_ok, F); cbn; tauto). rewrite tstar_tstar by (intros []; reflexivity).
  rewrite (pair_pass _ _ p_close_inv) by (try (apply tstar_ok, F); cbn; tauto). rewrite tstar_tstar by (intros []; reflexivity).
  f_equal. f_equal. f_equal. apply tstar_ext. intros l t t' r _. destruct t, t'; cbn; rewrite ?andb_false_r, ?orb_true_r; try reflexivity; unfold num_call; cbn; rewrite ?andb_false_r, ?orb_true_r, ?orb_false_r; reflexivity.
Qed.
