(* Proofs about fractions, tokens and the parser. *)
From Coq Require Import Ascii String.
From Coq Require Import List ZArith Bool Lia.
From Verif Require Import Base Str Symm Parse ParseSpec MassesThm GenThm ParseStars.
Import ListNotations.
Open Scope Z_scope.

(* ---- digits/digits becomes Fraction(digits,digits) ---- *)
Inductive ftok := FT (t : tok) | FF (a b : Z).
Definition ftxt (t : ftok) : pystr := match t with FT t => f4 t | FF a b => lit "Fraction(" ++ dec a ++ lit "," ++ dec b ++ lit ")" end.
Fixpoint fold_toks (ts : list tok) : list ftok :=
  match ts with
  | [] => []
  | TCaret :: r1 => match r1 with TNum a :: r => FT TCaret :: FT (TNum a) :: fold_toks r | _ => FT TCaret :: fold_toks r1 end
  | TNum a :: r1 => match r1 with TSlash :: r2 => match r2 with TNum b :: r => FF a b :: fold_toks r | _ => FT (TNum a) :: FT TSlash :: fold_toks r2 end | _ => FT (TNum a) :: fold_toks r1 end
  | t :: r1 => FT t :: fold_toks r1
  end.
Definition slash_digit (r : pystr) : bool := match r with c :: d :: _ => (c =? 47) && is_digit d | _ => false end.
Lemma slash_no c r : c <> 47 -> slash_digit (c :: r) = false.
Proof. intros H. destruct r as [|d r]; [reflexivity|]. cbn [slash_digit]. rewrite (proj2 (Z.eqb_neq c 47) H). reflexivity. Qed.
Lemma rat_other b c s : is_digit c = false -> m_rat b (c :: s) = None.
Proof. intros H. unfold m_rat. cbn [digits]. rewrite H. reflexivity. Qed.
Lemma rat_behind b s : starts [42; 42] b = true -> m_rat b s = None.
Proof. intros H. unfold m_rat. rewrite H. cbn [negb]. destruct (digits s); [reflexivity|]. destruct (skipn _ _); [reflexivity|]. rewrite andb_false_r. reflexivity. Qed.
Lemma rat_plain u b r : (forall c, In c u -> is_digit c = false) -> re_sub m_rat b 0 (u ++ r) = u ++ re_sub m_rat (rev u ++ b) 0 r.
Proof. intros H. apply sub_plain. intros b' c s I. apply rat_other, H, I. Qed.
Lemma rat_quiet u b r : numeric u -> stops r -> slash_digit r = false -> re_sub m_rat b 0 (u ++ r) = u ++ re_sub m_rat (rev u ++ b) 0 r.
Proof.
  intros F S D. revert b. induction F as [|c u H F IH]; intros b; [reflexivity|]. cbn [app]. rewrite sub_step.
  - rewrite IH. cbn [rev]. rewrite <- app_assoc. reflexivity.
  - unfold m_rat. change (c :: u ++ r) with ((c :: u) ++ r). rewrite digits_app by (try exact S; constructor; assumption). rewrite skipn_app'.
    destruct r as [|x [|y r]]; [reflexivity| |]; cbn [app].
    + destruct ((x =? 47) && negb (starts [42; 42] b)); reflexivity.
    + cbn [slash_digit] in D. destruct (x =? 47); [|reflexivity]. cbn [andb] in *. cbn [digits]. rewrite D. destruct (negb (starts [42; 42] b)); reflexivity.
Qed.
Lemma rat_match a b b0 r : 0 <= a -> 0 <= b -> stops r -> starts [42; 42] b0 = false ->
  re_sub m_rat b0 0 (dec a ++ [47] ++ dec b ++ r) = ftxt (FF a b) ++ re_sub m_rat (rev (dec a ++ [47] ++ dec b) ++ b0) 0 r.
Proof.
  intros Ha Hb S N. replace (dec a ++ [47] ++ dec b ++ r) with ((dec a ++ [47] ++ dec b) ++ r) by (rewrite <- !app_assoc; reflexivity).
  apply sub_match; [destruct (dec a); discriminate|]. unfold m_rat. rewrite <- !app_assoc. rewrite digits_app by (try apply dec_numeric, Ha; reflexivity).
  destruct (dec_cons a Ha) as (d & ds & E). rewrite E. rewrite <- E. rewrite skipn_app'. cbn [app]. rewrite N, Z.eqb_refl. cbn [andb negb]. rewrite digits_app by (try apply dec_numeric, Hb; exact S).
  destruct (dec_cons b Hb) as (d' & ds' & E'). rewrite E'. rewrite <- E'. apply f_equal, f_equal2; [rewrite !app_length; cbn [length]; lia|]. cbn [ftxt]. rewrite E'. reflexivity.
Qed.
Lemma rat_each u r : ~ In 47 u -> (u = [] \/ is_digit (last u 0) = false) -> forall b, each (none m_rat) b u r.
Proof.
  induction u as [|c u IH]; intros N E b; [exact I|]. destruct E as [E|E]; [discriminate E|]. split.
  - unfold none, m_rat. destruct (digits_split (c :: u ++ r)) as (D & M). destruct (digits (c :: u ++ r)) as [|d ds]; [reflexivity|]. destruct (skipn _ (c :: u ++ r)) as [|x s2]; [reflexivity|]. destruct (x =? 47) eqn:X; [|reflexivity]. apply Z.eqb_eq in X. subst x. exfalso.
    change (c :: u ++ r) with ((c :: u) ++ r) in D. assert (Y := app_eq_app (c :: u) r (d :: ds) (47 :: s2) D). destruct Y as (l & [(Y1 & Y2)|(Y1 & Y2)]).
    + destruct l as [|y l]; [|injection Y2 as <- _; apply N; rewrite Y1; apply in_app_iff; right; left; reflexivity].
      rewrite app_nil_r in Y1. rewrite Y1 in E. assert (Z1 : In (last (d :: ds) 0) (d :: ds)) by (apply last_in; discriminate). apply (proj1 (Forall_forall _ _) M) in Z1. cbv beta in Z1. congruence.
    + assert (Z1 : In (last (c :: u) 0) (d :: ds)) by (rewrite Y1; apply in_app_iff; left; apply last_in; discriminate). apply (proj1 (Forall_forall _ _) M) in Z1. cbv beta in Z1. congruence.
  - apply IH; [intros X; apply N; right; exact X|]. destruct u; [left; reflexivity|right; exact E].
Qed.
Lemma rat_call a b r : inv_ok a -> re_sub m_rat b 0 (call (inv_text a) ++ r) = call (inv_text a) ++ re_sub m_rat (rev (call (inv_text a)) ++ b) 0 r.
Proof.
  intros K. apply sub_each, rat_each; [|right; rewrite call_eq, last_last; reflexivity]. intros X. rewrite call_eq in X. rewrite !in_app_iff in X. destruct X as [[X|[X|X]]|X]; try (cbn in X; lia).
  apply inv_chars in X; [|exact K]. unfold inv_char in X. cbn in X. lia.
Qed.
Definition begins_num (ts : list tok) : bool := match ts with TNum _ :: _ => true | _ => false end.
Definition begins_slash_num (ts : list tok) : bool := match ts with TSlash :: TNum _ :: _ => true | _ => false end.
Definition begins_star (ts : list tok) : bool := match ts with TStar :: _ => true | _ => false end.
Lemma hd_txt t ts : tok_ok t -> exists u, txt f4 (t :: ts) = hd 0 (f4 t) :: u.
Proof. intros K. rewrite txt_cons. assert (N := f4_nil t K). destruct (f4 t) as [|c u]; [congruence|]. eexists. reflexivity. Qed.
Lemma stops_txt ts : Forall tok_ok ts -> begins_num ts = false -> stops (txt f4 ts).
Proof.
  intros F B. destruct ts as [|t ts]; [exact I|]. inversion F as [|? ? K F']; subst. destruct (hd_txt t ts K) as (u & ->). assert (H := f4_hd t K). cbn [stops].
  destruct t; try discriminate B; try reflexivity. rewrite H. reflexivity.
Qed.
Lemma slash_txt ts : Forall tok_ok ts -> begins_slash_num ts = false -> slash_digit (txt f4 ts) = false.
Proof.
  intros F B. destruct ts as [|t ts]; [reflexivity|]. inversion F as [|? ? K F']; subst. destruct (match t with TSlash => true | _ => false end) eqn:E.
  - destruct t; try discriminate E. rewrite txt_cons. cbn [st tok_text app]. destruct ts as [|t' ts]; [reflexivity|]. inversion F' as [|? ? K' F'']; subst.
    assert (S := stops_txt (t' :: ts) F' ltac:(destruct t'; try discriminate B; reflexivity)). destruct (hd_txt t' ts K') as (u & Eu). rewrite Eu in *. cbn in S. cbn [slash_digit]. rewrite S. apply andb_false_r.
  - assert (H := f4_hd t K). destruct (hd_txt t ts K) as (u & ->). cbn [slash_digit]. destruct u as [|d u]; [reflexivity|]. assert (hd 0 (f4 t) <> 47).
    { intros X. destruct t; try discriminate E; try discriminate X; rewrite X in H; discriminate H. }
    rewrite (proj2 (Z.eqb_neq _ 47)) by assumption. reflexivity.
Qed.
Lemma rev_f4_hd t b : tok_ok t -> exists u, rev (f4 t) ++ b = last (f4 t) 0 :: u.
Proof. intros K. destruct (exists_last (f4_nil t K)) as (u & c & E). rewrite E, rev_app_distr, last_last. eexists. reflexivity. Qed.
Lemma starts_two c b : (c = 42 -> exists d b', b = d :: b' /\ d <> 42) \/ c <> 42 -> starts [42; 42] (c :: b) = false.
Proof.
  intros H. cbn [starts]. destruct (Z.eqb_spec 42 c) as [<-|N]; [|reflexivity]. destruct H as [H|H]; [|congruence]. destruct (H eq_refl) as (d & b' & -> & D).
  rewrite (proj2 (Z.eqb_neq 42 d)) by congruence. reflexivity.
Qed.
(* no number of two or more digits over a number directly after a power *)
Definition no_pow_clash (ts : list tok) : Prop := forall l a b r, ts = l ++ TCaret :: TNum a :: TSlash :: TNum b :: r -> a < 10.
Definition hd_not_star (b : pystr) : Prop := match b with c :: _ => c <> 42 | [] => True end.
Lemma starts_hd_not b : hd_not_star b -> starts [42; 42] b = false.
Proof. destruct b as [|c b]; [reflexivity|]. cbn [hd_not_star starts]. intros H. rewrite (proj2 (Z.eqb_neq 42 c)) by congruence. reflexivity. Qed.
Lemma npc_tl t ts : no_pow_clash (t :: ts) -> no_pow_clash ts.
Proof. intros H l a b r ->. apply (H (t :: l) a b r). reflexivity. Qed.
Lemma f4_hd_not t b : tok_ok t -> t <> TStar -> t <> TCaret -> hd_not_star (rev (f4 t) ++ b).
Proof.
  intros K N1 N2. destruct (rev_f4_hd t b K) as (u & ->). assert (L := f4_last t K). cbn [hd_not_star]. destruct t; try congruence; try discriminate.
  intros X. rewrite X in L. discriminate L.
Qed.
Lemma f4_num a : f4 (TNum a) = dec a. Proof. reflexivity. Qed.
Ltac oth IH F' A P := rewrite (fun H => rat_plain _ _ _ H) by (intros ? I; inl I; reflexivity); rewrite IH; [reflexivity|cbn; lia|exact F'|exact (adj_tl _ _ _ A)|exact (npc_tl _ _ P)|left; apply f4_hd_not; [exact I|discriminate|discriminate]].
Lemma pass_rat ts : forall b, Forall tok_ok ts -> adj okpair ts -> no_pow_clash ts ->
  hd_not_star b \/ (begins_num ts = false /\ begins_star ts = false) \/ (begins_star ts = false /\ starts [42; 42] b = false) ->
  re_sub m_rat b 0 (txt f4 ts) = concat (map ftxt (fold_toks ts)).
Proof.
  induction ts as [ts IH] using (well_founded_induction (Wf_nat.well_founded_ltof _ (@length tok))). unfold Wf_nat.ltof in IH. intros b F A P B.
  destruct ts as [|t ts]; [reflexivity|]. inversion F as [|t1 ts1 K F']; subst. rewrite txt_cons. destruct t as [n|a| | | | | | |].
  - assert (SB : starts [42; 42] b = false) by (destruct B as [B|[[B _]|[_ B]]]; [apply starts_hd_not, B|discriminate B|exact B]).
    destruct (begins_slash_num ts) eqn:E.
    + destruct ts as [|[] [|[m| | | | | | | |] ts]]; try discriminate E. inversion F' as [|? ? _ F2]; subst. inversion F2 as [|? ? Km F3]; subst.
      rewrite !txt_cons. assert (NB : begins_num ts = false). { destruct ts as [|t' ts]; [reflexivity|]. assert (X := adj_hd _ _ _ _ (adj_tl _ _ _ (adj_tl _ _ _ A))). destruct t'; try reflexivity. discriminate X. }
      change (f4 (TNum n) ++ f4 TSlash ++ f4 (TNum m) ++ txt f4 ts) with (dec n ++ [47] ++ dec m ++ txt f4 ts).
      rewrite rat_match by (try assumption; apply stops_txt; assumption). cbn [fold_toks map concat]. f_equal. apply IH; [cbn; lia|exact F3|exact (adj_tl _ _ _ (adj_tl _ _ _ (adj_tl _ _ _ A)))|exact (npc_tl _ _ (npc_tl _ _ (npc_tl _ _ P)))|].
      left. rewrite app_assoc, rev_app_distr, <- app_assoc. apply (f4_hd_not (TNum m)); [exact Km|discriminate|discriminate].
    + assert (NB : begins_num ts = false). { destruct ts as [|t' ts]; [reflexivity|]. assert (X := adj_hd _ _ _ _ A). destruct t'; try reflexivity. discriminate X. }
      rewrite f4_num. rewrite rat_quiet by (try (apply dec_numeric, K); try (apply stops_txt; assumption); apply slash_txt; assumption).
      assert (G : fold_toks (TNum n :: ts) = FT (TNum n) :: fold_toks ts) by (destruct ts as [|[] [|[] ts]]; try reflexivity; discriminate E).
      rewrite G. cbn [map concat ftxt]. rewrite f4_num. f_equal. apply IH; [cbn; lia|exact F'|exact (adj_tl _ _ _ A)|exact (npc_tl _ _ P)|]. left. apply (f4_hd_not (TNum n)); [exact K|discriminate|discriminate].
  - rewrite f4_inv. rewrite rat_call by exact K. cbn [fold_toks map concat ftxt]. rewrite f4_inv. f_equal. apply IH; [cbn; lia|exact F'|exact (adj_tl _ _ _ A)|exact (npc_tl _ _ P)|]. left. rewrite <- f4_inv. apply f4_hd_not; [exact K|discriminate|discriminate].
  - oth IH F' A P.
  - oth IH F' A P.
  - oth IH F' A P.
  - oth IH F' A P.
  - rewrite rat_plain by (intros ? I; inl I; reflexivity). rewrite IH; [reflexivity|cbn; lia|exact F'|exact (adj_tl _ _ _ A)|exact (npc_tl _ _ P)|].
    right. right. destruct B as [B|[[_ B]|[B _]]]; try discriminate B. split.
    + destruct ts as [|t' ts]; [reflexivity|]. assert (X := adj_hd _ _ _ _ A). destruct t'; try reflexivity. discriminate X.
    + cbn [st tok_text rev app]. destruct b as [|d b]; [reflexivity|]. apply starts_two. left. intros _. exists d, b. split; [reflexivity|exact B].
  - oth IH F' A P.
  - destruct (begins_num ts) eqn:E.
    + destruct ts as [|[a| | | | | | | |] ts]; try discriminate E. inversion F' as [|? ? Ka F2]; subst. cbn [fold_toks map concat]. rewrite txt_cons.
      rewrite rat_plain by (intros ? I; inl I; reflexivity). cbn [ftxt]. f_equal. rewrite f4_num.
      assert (NB : begins_num ts = false). { destruct ts as [|t' ts]; [reflexivity|]. assert (X := adj_hd _ _ _ _ (adj_tl _ _ _ A)). destruct t'; try reflexivity. discriminate X. }
      assert (G : forall b', re_sub m_rat (rev (dec a) ++ b') 0 (txt f4 ts) = concat (map ftxt (fold_toks ts))).
      { intros b'. apply IH; [cbn; lia|exact F2|exact (adj_tl _ _ _ (adj_tl _ _ _ A))|exact (npc_tl _ _ (npc_tl _ _ P))|]. left. apply (f4_hd_not (TNum a)); [exact Ka|discriminate|discriminate]. }
      destruct (begins_slash_num ts) eqn:E2.
      * destruct ts as [|[] [|[m| | | | | | | |] ts]]; try discriminate E2. assert (La : a < 10) by (apply (P [] a m ts); reflexivity). cbn in Ka.
        specialize (G (rev (f4 TCaret) ++ b)). rewrite dec_digit in * by lia. cbn [app] in *. rewrite sub_step; [f_equal; exact G|].
        apply rat_behind. reflexivity.
      * rewrite rat_quiet by (try (apply dec_numeric, Ka); try (apply stops_txt; assumption); apply slash_txt; assumption). f_equal. apply G.
    + rewrite rat_plain by (intros ? I; inl I; reflexivity).
      assert (G : fold_toks (TCaret :: ts) = FT TCaret :: fold_toks ts) by (destruct ts as [|[] ts]; try reflexivity; discriminate E).
      rewrite G. cbn [map concat ftxt]. f_equal. apply IH; [cbn; lia|exact F'|exact (adj_tl _ _ _ A)|exact (npc_tl _ _ P)|]. right. left. split; [exact E|].
      destruct ts as [|t' ts]; [reflexivity|]. assert (X := adj_hd _ _ _ _ A). destruct t'; try reflexivity. discriminate X.
Qed.
(* ---- the tokens ---- *)
Definition kt (t : ftok) : list ktok :=
  match t with
  | FT (TNum n) => [KNum n]
  | FT (TInv a) => [KName (lit "oPs"); KOp 40; KStr (inv_text a); KOp 41]
  | FT TL => [KOp 40] | FT TR => [KOp 41] | FT TPlus => [KOp 43] | FT TMinus => [KOp 45] | FT TStar => [KOp 42] | FT TSlash => [KOp 47]
  | FT TCaret => [KPow]
  | FF a b => [KName (lit "Fraction"); KOp 40; KNum a; KOp 44; KNum b; KOp 41]
  end.
Definition ftext (fts : list ftok) : pystr := concat (map ftxt fts).
Definition kts (fts : list ftok) : list ktok := concat (map kt fts).
Lemma lex_num f n r : 0 <= n -> stops r -> lex (S f) (dec n ++ r) = option_map (cons (KNum n)) (lex f r).
Proof.
  intros H S. destruct (dec_cons n H) as (d & ds & E). assert (D : is_digit d = true) by (apply (proj1 (Forall_forall _ _) (dec_numeric n H)); rewrite E; left; reflexivity).
  assert (X : lex (Datatypes.S f) (dec n ++ r) = let d := digits (dec n ++ r) in if literal_ok d then option_map (cons (KNum (number d))) (lex f (skipn (length d) (dec n ++ r))) else None).
  { rewrite E. cbn [app lex]. rewrite D. reflexivity. }
  rewrite X. cbv zeta. rewrite digits_app by (try apply dec_numeric, H; exact S). rewrite skipn_app', literal_dec, number_dec by exact H. reflexivity.
Qed.
Lemma lex_op f c r : In c [43; 45; 47; 40; 41; 44] -> lex (S f) (c :: r) = option_map (cons (KOp c)) (lex f r).
Proof. intros I. inl I; destruct r; reflexivity. Qed.
Lemma lex_star f r : hd_not_star r -> lex (S f) (42 :: r) = option_map (cons (KOp 42)) (lex f r).
Proof. intros H. destruct r as [|c r]; [reflexivity|]. cbn in H. cbn [lex is_digit is_letter andb orb Z.leb Z.compare Pos.compare Pos.compare_cont Z.eqb Pos.eqb]. rewrite (proj2 (Z.eqb_neq c 42) H). reflexivity. Qed.
Lemma lex_pow f r : lex (S f) (42 :: 42 :: r) = option_map (cons KPow) (lex f r). Proof. reflexivity. Qed.
Lemma lex_oPs f r : lex (S f) (lit "oPs" ++ 40 :: r) = option_map (cons (KName (lit "oPs"))) (lex f (40 :: r)). Proof. reflexivity. Qed.
Lemma lex_Fraction f r : lex (S f) (lit "Fraction" ++ 40 :: r) = option_map (cons (KName (lit "Fraction"))) (lex f (40 :: r)). Proof. reflexivity. Qed.
Lemma until_app u r : ~ In 39 u -> until_quote (u ++ 39 :: r) = u.
Proof. induction u as [|c u IH]; intros N; [reflexivity|]. cbn [app until_quote]. rewrite (proj2 (Z.eqb_neq c 39)) by (intros ->; apply N; left; reflexivity). rewrite IH; [reflexivity|]. intros I; apply N; right; exact I. Qed.
Lemma lex_str f u r : ~ In 39 u -> lex (S f) (39 :: u ++ 39 :: r) = option_map (cons (KStr u)) (lex f r).
Proof.
  intros N. cbn [lex is_digit is_letter andb orb Z.leb Z.compare Pos.compare Pos.compare_cont Z.eqb Pos.eqb]. rewrite until_app by exact N.
  replace (length u + 2)%nat with (length (39 :: u ++ [39])) by (cbn [length]; rewrite app_length; cbn [length]; lia).
  replace (39 :: u ++ 39 :: r) with ((39 :: u ++ [39]) ++ r) by (cbn [app]; rewrite <- app_assoc; reflexivity). rewrite skipn_app'. reflexivity.
Qed.
Lemma inv_39 a : inv_ok a -> ~ In 39 (inv_text a).
Proof. intros K I. apply inv_chars in I; [|exact K]. unfold inv_char in I. cbn in I. lia. Qed.
Lemma lex_inv f a r : inv_ok a -> lex (S (S (S (S f)))) (call (inv_text a) ++ r) = option_map (app (kt (FT (TInv a)))) (lex f r).
Proof.
  intros K. replace (call (inv_text a) ++ r) with (lit "oPs" ++ 40 :: 39 :: inv_text a ++ 39 :: 41 :: r) by (unfold call; rewrite <- !app_assoc; reflexivity).
  rewrite lex_oPs, lex_op by (cbn; tauto). rewrite lex_str by (apply inv_39, K). rewrite lex_op by (cbn; tauto). destruct (lex f r); reflexivity.
Qed.
Lemma lex_frac f a b r : 0 <= a -> 0 <= b -> lex (S (S (S (S (S (S f)))))) (ftxt (FF a b) ++ r) = option_map (app (kt (FF a b))) (lex f r).
Proof.
  intros Ha Hb. replace (ftxt (FF a b) ++ r) with (lit "Fraction" ++ 40 :: dec a ++ 44 :: dec b ++ 41 :: r) by (cbn [ftxt]; rewrite <- !app_assoc; reflexivity).
  rewrite lex_Fraction, lex_op by (cbn; tauto). rewrite lex_num by (try exact Ha; reflexivity). rewrite lex_op by (cbn; tauto). rewrite lex_num by (try exact Hb; reflexivity). rewrite lex_op by (cbn; tauto). destruct (lex f r); reflexivity.
Qed.
Lemma fold_head t ts : exists ft r', fold_toks (t :: ts) = ft :: r' /\ (ft = FT t \/ exists a b, ft = FF a b /\ t = TNum a).
Proof.
  destruct t as [n|a| | | | | | |]; try (eexists; eexists; split; [reflexivity|left; reflexivity]).
  - destruct ts as [|[] [|[] ts]]; eexists; eexists; (split; [reflexivity|]); try (left; reflexivity). right. eauto.
  - destruct ts as [|[] ts]; eexists; eexists; (split; [reflexivity|]); left; reflexivity.
Qed.
Lemma ftext_stops ts : Forall tok_ok ts -> begins_num ts = false -> stops (ftext (fold_toks ts)).
Proof.
  intros F B. destruct ts as [|t ts]; [exact I|]. inversion F as [|? ? K F']; subst. destruct (fold_head t ts) as (ft & r' & -> & [->|(a & b & -> & ->)]); [|discriminate B].
  assert (S := stops_txt [t] ltac:(repeat constructor; exact K) ltac:(destruct t; try discriminate B; reflexivity)). unfold txt in S. cbn [map concat] in S. rewrite app_nil_r in S.
  unfold ftext. cbn [map concat ftxt]. assert (N := f4_nil t K). destruct (f4 t); [congruence|exact S].
Qed.
Lemma ftext_star ts : Forall tok_ok ts -> begins_star ts = false -> (forall ts', ts <> TCaret :: ts') -> hd_not_star (ftext (fold_toks ts)).
Proof.
  intros F B C. destruct ts as [|t ts]; [exact I|]. inversion F as [|? ? K F']; subst. destruct (fold_head t ts) as (ft & r' & -> & [->|(a & b & -> & ->)]); [|discriminate].
  unfold ftext. cbn [map concat ftxt]. assert (N := f4_nil t K). assert (H := f4_hd t K). destruct (f4 t) as [|c u] eqn:E; [congruence|]. cbn [app hd_not_star hd] in *.
  destruct t; try discriminate B; try (exfalso; exact (C _ eq_refl)); try (cbn in E; injection E as <- _; discriminate); try (intros ->; discriminate H). 
Qed.
Theorem lex_fold ts : forall f, Forall tok_ok ts -> adj okpair ts -> (length (ftext (fold_toks ts)) < f)%nat -> lex f (ftext (fold_toks ts)) = Some (kts (fold_toks ts)).
Proof.
  induction ts as [ts IH] using (well_founded_induction (Wf_nat.well_founded_ltof _ (@length tok))). unfold Wf_nat.ltof in IH. intros f F A L.
  destruct ts as [|t ts]; [destruct f; [cbn in L; lia|reflexivity]|]. inversion F as [|t1 ts1 K F']; subst.
  assert (G1 : forall c, f4 t = [c] -> In c [43; 45; 47; 40; 41; 44] -> fold_toks (t :: ts) = FT t :: fold_toks ts -> kt (FT t) = [KOp c] -> lex f (ftext (fold_toks (t :: ts))) = Some (kts (fold_toks (t :: ts)))).
  { intros c E I E2 E3. rewrite E2 in *. unfold ftext, kts in *. cbn [map concat ftxt] in *. rewrite E in *. cbn [app length] in *. destruct f as [|f]; [lia|]. rewrite lex_op by exact I.
    rewrite E3. rewrite (IH ts); [reflexivity|cbn; lia|exact F'|exact (adj_tl _ _ _ A)|unfold ftext; lia]. }
  destruct t as [n|a| | | | | | |]; try (apply (G1 _ eq_refl); [cbn; tauto|reflexivity|reflexivity]).
  - clear G1. destruct (begins_slash_num ts) eqn:E.
    + destruct ts as [|[] [|[m| | | | | | | |] ts]]; try discriminate E. inversion F' as [|? ? _ F2]; subst. inversion F2 as [|? ? Km F3]; subst. cbn [fold_toks] in *. unfold ftext, kts in *. cbn [map concat] in *.
      rewrite app_length in L. assert (X : (6 <= length (ftxt (FF n m)))%nat) by (cbn [ftxt]; rewrite !app_length; cbn [length lit list_ascii_of_string map]; lia).
      destruct f as [|[|[|[|[|[|f]]]]]]; try lia. rewrite lex_frac by assumption. rewrite (IH ts); [reflexivity|cbn; lia|exact F3|exact (adj_tl _ _ _ (adj_tl _ _ _ (adj_tl _ _ _ A)))|unfold ftext; lia].
    + assert (NB : begins_num ts = false). { destruct ts as [|t' ts]; [reflexivity|]. assert (X := adj_hd _ _ _ _ A). destruct t'; try reflexivity. discriminate X. }
      assert (G : fold_toks (TNum n :: ts) = FT (TNum n) :: fold_toks ts) by (destruct ts as [|[] [|[] ts]]; try reflexivity; discriminate E).
      rewrite G in *. unfold ftext, kts in *. cbn [map concat ftxt] in *. rewrite f4_num in *. rewrite app_length in L. destruct (dec_cons n K) as (d & ds & Ed). assert (1 <= length (dec n))%nat by (rewrite Ed; cbn; lia).
      destruct f as [|f]; [lia|]. rewrite lex_num by (try exact K; apply ftext_stops; assumption). rewrite (IH ts); [reflexivity|cbn; lia|exact F'|exact (adj_tl _ _ _ A)|unfold ftext; lia].
  - clear G1. cbn [fold_toks] in *. unfold ftext, kts in *. cbn [map concat] in *. change (ftxt (FT (TInv a))) with (f4 (TInv a)) in *. rewrite f4_inv in *. rewrite app_length in L.
    assert (X : (6 <= length (call (inv_text a)))%nat) by (rewrite call_eq, !app_length; cbn [length]; lia). destruct f as [|[|[|[|f]]]]; try lia. rewrite lex_inv by exact K.
    rewrite (IH ts); [reflexivity|cbn; lia|exact F'|exact (adj_tl _ _ _ A)|unfold ftext; lia].
  - clear G1. cbn [fold_toks] in *. unfold ftext, kts in *. cbn [map concat ftxt] in *. cbn [st tok_text app length] in *. destruct f as [|f]; [lia|]. rewrite lex_star.
    + rewrite (IH ts); [reflexivity|cbn; lia|exact F'|exact (adj_tl _ _ _ A)|unfold ftext; lia].
    + apply ftext_star; [exact F'| |]; [destruct ts as [|t' ts]; [reflexivity|]; assert (X := adj_hd _ _ _ _ A); destruct t'; try reflexivity; discriminate X|intros ts' ->; discriminate (adj_hd _ _ _ _ A)].
  - clear G1. destruct (begins_num ts) eqn:E.
    + destruct ts as [|[a| | | | | | | |] ts]; try discriminate E. inversion F' as [|? ? Ka F2]; subst. cbn [fold_toks] in *. unfold ftext, kts in *. cbn [map concat ftxt] in *. rewrite f4_num in *. cbn [st app length] in *. rewrite app_length in L.
      destruct (dec_cons a Ka) as (d & ds & Ed). assert (1 <= length (dec a))%nat by (rewrite Ed; cbn; lia).
      assert (NB : begins_num ts = false). { destruct ts as [|t' ts]; [reflexivity|]. assert (X := adj_hd _ _ _ _ (adj_tl _ _ _ A)). destruct t'; try reflexivity. discriminate X. }
      destruct f as [|[|f]]; try lia. rewrite lex_pow. rewrite lex_num by (try exact Ka; apply ftext_stops; assumption). rewrite (IH ts); [reflexivity|cbn; lia|exact F2|exact (adj_tl _ _ _ (adj_tl _ _ _ A))|unfold ftext; lia].
    + assert (G : fold_toks (TCaret :: ts) = FT TCaret :: fold_toks ts) by (destruct ts as [|[] ts]; try reflexivity; discriminate E). rewrite G in *.
      unfold ftext, kts in *. cbn [map concat ftxt] in *. cbn [st app length] in *. destruct f as [|f]; [lia|]. rewrite lex_pow. rewrite (IH ts); [reflexivity|cbn; lia|exact F'|exact (adj_tl _ _ _ A)|unfold ftext; lia].
Qed.
(* ---- no blocks ---- *)
Lemma ftok_ok ts : Forall tok_ok ts -> Forall (fun x => match x with FT t => tok_ok t | FF a b => 0 <= a /\ 0 <= b end) (fold_toks ts).
Proof.
  induction ts as [ts IH] using (well_founded_induction (Wf_nat.well_founded_ltof _ (@length tok))). unfold Wf_nat.ltof in IH. intros F. destruct ts as [|t ts]; [constructor|]. inversion F as [|? ? K F']; subst.
  assert (G : Forall (fun x => match x with FT t => tok_ok t | FF a b => 0 <= a /\ 0 <= b end) (fold_toks ts)) by (apply IH; [cbn; lia|exact F']).
  destruct t as [n|a| | | | | | |]; try (constructor; [exact K|exact G]).
  - destruct ts as [|t' ts]; [repeat constructor; exact K|]. destruct t'; try (constructor; [exact K|exact G]). inversion F' as [|? ? K' F2]; subst. destruct ts as [|t2 ts]; [repeat constructor; exact K|]. inversion F2 as [|? ? K2 F3]; subst.
    assert (G2 : Forall (fun x => match x with FT t => tok_ok t | FF a b => 0 <= a /\ 0 <= b end) (fold_toks (t2 :: ts))) by (apply IH; [cbn; lia|exact F2]).
    destruct t2; try (constructor; [exact K|]; constructor; [exact I|exact G2]). constructor; [split; assumption|]. apply IH; [cbn; lia|exact F3].
  - destruct ts as [|t' ts]; [repeat constructor|]. destruct t'; try (constructor; [exact I|exact G]). inversion F' as [|? ? K' F2]; subst. constructor; [exact I|]. constructor; [exact K'|]. apply IH; [cbn; lia|exact F2].
Qed.
Lemma no_block ts : Forall tok_ok ts -> re_sub m_block [] 0 (ftext (fold_toks ts)) = ftext (fold_toks ts).
Proof.
  intros F. assert (N : ~ In 98 (ftext (fold_toks ts))).
  { unfold ftext. intros J. apply in_concat in J. destruct J as (u & Iu & Ic). apply in_map_iff in Iu. destruct Iu as (x & <- & Ix). assert (O := ftok_ok ts F). apply (proj1 (Forall_forall _ _) O) in Ix. destruct x as [t|a b].
    - apply (txt_strange true 9 [t] 98); [strange|constructor; [exact Ix|constructor]|]. rewrite txt_cons. apply in_app_iff. left. exact Ic.
    - destruct Ix as [A B]. cbn [ftxt] in Ic. rewrite !in_app_iff in Ic. destruct Ic as [J|[J|[J|[J|J]]]]; try (cbn in J; lia); (eapply dec_in in J; [|eassumption]; lia). }
  assert (X := sub_plain m_block (ftext (fold_toks ts)) ltac:(intros b c s J; unfold m_block; change (lit "block") with [98; 108; 111; 99; 107]; cbn [starts]; rewrite (proj2 (Z.eqb_neq 98 c)) by (intros <-; exact (N J)); reflexivity) [] []).
  rewrite app_nil_r in X. rewrite X. apply app_nil_r.
Qed.
