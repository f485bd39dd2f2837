(* What _parse makes of sums of products of brackets with massive spinors. *)
From Coq Require Import Ascii String.
From Coq Require Import List ZArith Bool Lia.
From Verif Require Import Base Str MassesThm Regex RegexThm Parse ParseSpec ParseChars ParseWrap ParseOpen ParseVary TensorText.
Import ListNotations.
Open Scope Z_scope.

(* a bracket: angle or square, which ends are massive, the labels and the spin indices *)
Record item := It { i_sq : bool; i_lm : bool; i_rm : bool; i_i : Z; i_j : Z; i_k : Z; i_l : Z }.
Definition marks (sq : bool) : list Z := if sq then [94; 117] else [95; 100].
Definition item_ok (x : item) : Prop := 0 <= i_i x /\ 0 <= i_j x /\ In (i_k x) (marks (i_sq x)) /\ In (i_l x) (marks (i_sq x)).
Definition bra_c (sq : bool) : Z := if sq then 91 else 10216.
Definition ket_c (sq : bool) : Z := if sq then 93 else 10217.

(* ---- pieces of text, with what follows them ---- *)
Definition o_bra (w : bool) (c i : Z) (r : pystr) : pystr := if w then 111 :: 80 :: 115 :: 40 :: 39 :: c :: dec i ++ 124 :: 39 :: 41 :: r else c :: dec i ++ 124 :: r.
Definition o_ket (w : bool) (j c : Z) (r : pystr) : pystr := if w then 111 :: 80 :: 115 :: 40 :: 39 :: 124 :: dec j ++ c :: 39 :: 41 :: r else 124 :: dec j ++ c :: r.
Definition o_block (w : bool) (r : pystr) : pystr := if w then 110 :: 117 :: 109 :: 112 :: 121 :: 46 :: 98 :: 108 :: 111 :: 99 :: 107 :: r else 98 :: 108 :: 111 :: 99 :: 107 :: r.
Definition o_neg (b : bool) (r : pystr) : pystr := if b then 45 :: r else r.
Definition row_text (nb w sq : bool) (i : Z) (r : pystr) : pystr :=
  40 :: o_neg sq (1013 :: 64 :: o_block nb (40 :: 91 :: 91 :: o_bra w (bra_c sq) i (93 :: 44 :: 32 :: 91 :: o_bra w (bra_c sq) (i + 1) (93 :: 93 :: 41 :: 41 :: 91 :: 48 :: 58 :: 49 :: 44 :: 32 :: 58 :: 93 :: r)))).
Definition col_text (nb w sq : bool) (j : Z) (r : pystr) : pystr :=
  40 :: o_block nb (40 :: 91 :: o_ket w j (ket_c sq) (44 :: 32 :: o_ket w (j + 1) (ket_c sq) (93 :: 41 :: 64 :: o_neg (negb sq) (1013 :: 41 :: 91 :: 58 :: 44 :: 32 :: 48 :: 58 :: 49 :: 93 :: r)))).
(* in the first stages: which of the ends are written out *)
Definition early (Au Ad Bd Bu : bool) (x : item) (r : pystr) : pystr :=
  let sq := i_sq x in
  let right := if i_rm x then (if (if sq then Bu else Ad) then 124 :: 64 :: col_text false false sq (i_j x) r else 124 :: dec (i_j x) ++ i_l x :: ket_c sq :: r)
               else 124 :: dec (i_j x) ++ ket_c sq :: r in
  if i_lm x then (if (if sq then Bd else Au) then row_text false false sq (i_i x) (64 :: right) else bra_c sq :: dec (i_i x) ++ i_k x :: right) else bra_c sq :: dec (i_i x) ++ right.
(* in the later ones: which brackets of massless spinors are wrapped, which spinors, and block *)
Definition late (T U Ab Ak Sb Sk nb : bool) (x : item) (r : pystr) : pystr :=
  let sq := i_sq x in
  if negb (i_lm x || i_rm x) then
    (if (if sq then U else T) then 111 :: 80 :: 115 :: 40 :: 39 :: bra_c sq :: dec (i_i x) ++ 124 :: dec (i_j x) ++ ket_c sq :: 39 :: 41 :: r else bra_c sq :: dec (i_i x) ++ 124 :: dec (i_j x) ++ ket_c sq :: r)
  else
  let wb := if sq then Sb else Ab in let wk := if sq then Sk else Ak in
  let right := if i_rm x then col_text nb wk sq (i_j x) r else o_ket wk (i_j x) (ket_c sq) r in
  if i_lm x then row_text nb wb sq (i_i x) (64 :: right) else o_bra wb (bra_c sq) (i_i x) (64 :: right).

(* ---- a replacement that goes through bracket by bracket ---- *)
Definition is_o (o : Z) : Prop := o = 43 \/ o = 45 \/ o = 42.
Fixpoint tail_text (tx : item -> pystr -> pystr) (l : list (Z * item)) : pystr :=
  match l with [] => [] | (o, x) :: l' => o :: tx x (tail_text tx l') end.
Definition all_text (tx : item -> pystr -> pystr) (x : item) (l : list (Z * item)) : pystr := tx x (tail_text tx l).
Definition free (r : pystr) : Prop := match r with [] => True | o :: _ => is_o o end.
Definition stage (m : pystr -> pystr -> option (nat * pystr)) (tx tx' : item -> pystr -> pystr) : Prop :=
  forall x, item_ok x -> forall b r r', out_of_call b = true -> free r -> no_end_call r = true -> (forall b, re_sub m b 0 r = r') -> re_sub m b 0 (tx x r) = tx' x r'.
Definition rest_ok (l : list (Z * item)) : Prop := Forall (fun y => is_o (fst y) /\ item_ok (snd y)) l.
Lemma free_tail tx l : rest_ok l -> free (tail_text tx l). Proof. intros [|[o x] l' [H _] _]; cbn; [exact I|exact H]. Qed.
Lemma free_shut r : free r -> no_end_call r = true. Proof. destruct r as [|o r]; [reflexivity|]. intros [-> |[-> | ->]]; destruct r; reflexivity. Qed.
Lemma out_o o b : is_o o -> out_of_call (o :: b) = true. Proof. intros [-> |[-> | ->]]; destruct b; reflexivity. Qed.
Lemma tail_stage m tx tx' : stage m tx tx' -> (forall b o s, is_o o -> m b (o :: s) = None) -> forall l, rest_ok l -> forall b, re_sub m b 0 (tail_text tx l) = tail_text tx' l.
Proof.
  intros S O l H. induction H as [|[o x] l [H1 H2] H IH]; intros b; [reflexivity|]. cbn [tail_text]. cbn [fst snd] in *. apply step_eq; [apply O, H1|]. apply S; [exact H2|apply out_o, H1|apply free_tail, H|apply free_shut, free_tail, H|exact IH].
Qed.
Lemma all_stage m tx tx' x l : stage m tx tx' -> (forall b o s, is_o o -> m b (o :: s) = None) -> item_ok x -> rest_ok l -> re_sub m [] 0 (all_text tx x l) = all_text tx' x l.
Proof. intros S O H1 H. apply S; [exact H1|reflexivity|apply free_tail, H|apply free_shut, free_tail, H|]. apply tail_stage; assumption. Qed.
(* brackets of massless spinors *)
Lemma no_bar md v x r u : Forall mid md -> numeric u -> ~ mid x -> u ++ x :: r = md ++ 124 :: v -> False.
Proof.
  intros F. revert u. induction F as [|c md Hc F IH]; intros u Nu Nx E; destruct u as [|d u]; cbn [app] in E; injection E as E1 E2.
  - subst x. exact (Nx M124).
  - subst d. inversion Nu; discriminate.
  - subst c. exact (Nx Hc).
  - inversion Nu; subst. eapply IH; eassumption.
Qed.
Lemma NB_two b c i j x r : 0 <= i -> 0 <= j -> ~ mid x -> m_NB b (c :: dec i ++ 124 :: dec j ++ x :: r) = None.
Proof.
  intros Hi Hj X. apply re_none. intros _ p g q E P _. apply NB_inv in P. destruct P as (c' & n1 & md & n2 & k & -> & _ & N1 & M & _). cbn [app] in E. injection E as _ E. rewrite <- app_assoc in E. cbn [app] in E.
  apply (split_first dig) in E; [|discriminate|discriminate|apply dec_numeric, Hi|apply digs_numeric in N1; apply N1]. destruct E as (_ & _ & E). rewrite <- app_assoc in E. cbn [app] in E. exact (no_bar _ _ _ _ _ M (dec_numeric j Hj) X E).
Qed.
Lemma begin_two b j x r : 0 <= j -> ~ mid x -> m_begin b (124 :: dec j ++ x :: r) = None.
Proof.
  intros Hj X. apply re_none. intros _ p g q E P _. apply par_RSeq in P. destruct P as (t1 & u1 & ? & ? & -> & _ & P1 & P). apply par_rc in P1. destruct P1 as (-> & _).
  apply par_RSeq in P. destruct P as (md & u2 & ? & ? & -> & _ & P1 & P). apply mid_begin_mid in P1.
  apply par_RSeq in P. destruct P as (t2 & u3 & ? & ? & -> & _ & P2 & P). apply par_rc in P2. destruct P2 as (-> & _). cbn in E. injection E as E. rewrite <- app_assoc in E. cbn [app] in E.
  exact (no_bar _ _ _ _ _ P1 (dec_numeric j Hj) X E).
Qed.
Lemma dbl_two ok out b j x r : 0 <= j -> ~ mid x -> m_re ok e_double free_end out b (124 :: dec j ++ x :: r) = None.
Proof.
  intros Hj X. apply re_none. intros _ p g q E P _. apply par_RSeq in P. destruct P as (t1 & u1 & ? & ? & -> & _ & P1 & P). apply par_rc in P1. destruct P1 as (-> & _).
  apply par_RSeq in P. destruct P as (md & u2 & ? & ? & -> & _ & P1 & P). apply mid_end_mid in P1. apply par_rc in P. destruct P as (-> & _). cbn in E. injection E as E. rewrite <- app_assoc in E. cbn [app] in E.
  exact (no_bar _ _ _ _ _ P1 (dec_numeric j Hj) X E).
Qed.
Lemma ket_shut f bras kt b j x r : 0 <= j -> is_digit x = false -> m_ket f bras kt b (124 :: dec j ++ x :: 39 :: 41 :: r) = None.
Proof. intros Hj X. unfold m_ket. destruct (_ && _); [|reflexivity]. cbv zeta. split_at j x (39 :: 41 :: r) Hj X. change (no_end_call (39 :: 41 :: r)) with false. rewrite andb_false_r. reflexivity. Qed.
Lemma two_step bra kt b i j r r' : 0 <= i -> 0 <= j -> is_digit kt = false -> (forall b, re_sub (m_two bra kt) b 0 r = r') ->
  re_sub (m_two bra kt) b 0 (bra :: dec i ++ 124 :: dec j ++ kt :: r) = 111 :: 80 :: 115 :: 40 :: 39 :: bra :: dec i ++ 124 :: dec j ++ kt :: 39 :: 41 :: r'.
Proof.
  intros Hi Hj T E. replace (bra :: dec i ++ 124 :: dec j ++ kt :: r) with ((bra :: dec i ++ 124 :: dec j ++ [kt]) ++ r) by (cbn [app]; repeat (rewrite <- app_assoc; cbn [app]); reflexivity).
  rewrite (hit_eq _ _ _ _ r' (call (bra :: dec i ++ 124 :: dec j ++ [kt]))); [| discriminate | |apply E].
  - unfold call. change (lit "oPs('") with [111; 80; 115; 40; 39]. change (lit "')") with [39; 41]. repeat (cbn [app]; rewrite <- ?app_assoc). reflexivity.
  - repeat (cbn [app]; rewrite <- ?app_assoc). unfold m_two. rewrite Z.eqb_refl. cbv zeta. split_at i 124 (dec j ++ kt :: r) Hi (eq_refl (is_digit 124)). change (124 =? 124) with true. cbv iota. split_at j kt r Hj T. rewrite Z.eqb_refl. f_equal. f_equal. cbn [length app]. rewrite !app_length. cbn [length]. rewrite !app_length. cbn [length]. lia.
Qed.
Ltac nmid := solve [unfold mid; cbn; lia].
Ltac none2 :=
  first [solve [none1] |
  lazymatch goal with
  | |- m_NB _ _ = None => apply NB_two; [side|side|nmid]
  | |- m_begin _ _ = None => apply begin_two; [side|nmid]
  | |- m_double _ _ = None => apply dbl_two; [side|nmid]
  | |- m_double_dot _ _ = None => apply dbl_two; [side|nmid]
  | |- m_ket _ _ _ _ _ = None => apply ket_shut; [side|reflexivity]
  end].
Ltac hit2 :=
  lazymatch goal with
  | |- re_sub (m_spin _ _ _ _) _ _ _ = _ => first [apply spin_Au | apply spin_Ad | apply spin_Bd | apply spin_Bu]; [reflexivity|reflexivity|reflexivity|reflexivity|side|]
  | |- re_sub (m_bra _ _ _) _ _ _ = _ => apply bra_step; [reflexivity|first [assumption|reflexivity]|side|reflexivity|discriminate|discriminate|]
  | |- re_sub (m_ket _ _ _) _ _ (124 :: _) = _ => apply ket_step; [reflexivity|reflexivity|reflexivity|reflexivity|reflexivity|side|first [assumption|reflexivity]|]
  | |- re_sub m_block _ _ (98 :: _) = _ => apply block_step; [reflexivity|]
  | E : forall b, re_sub _ b 0 ?r = _ |- re_sub (m_two _ _) _ _ (_ :: dec _ ++ 124 :: dec _ ++ _ :: ?r) = _ => apply two_step; [side|side|reflexivity|exact E]
  | |- re_sub (m_lit _ _) _ _ (64 :: _) = _ => apply ats_step
  end.
Ltac walk2 :=
  idtac; lazymatch goal with
  | |- re_sub _ _ 0 (dec _ ++ _) = _ => apply dec_eq; [side|digit1|walk2]
  | |- re_sub _ _ 0 (_ :: _) = _ => first [hit2 | apply step_eq; [solve [none2]|]]; walk2
  | E : forall b, re_sub _ b 0 ?r = _ |- re_sub _ _ 0 ?r = _ => apply E
  end.
Ltac open_text := cbv [early late row_text col_text o_bra o_ket o_block o_neg bra_c ket_c i_sq i_lm i_rm i_i i_j i_k i_l negb orb].
Ltac cases x H :=
  destruct x as [[|] [|] [|] i j k l]; destruct H as (Hi & Hj & Hk & Hl); cbn [i_sq i_lm i_rm i_i i_j i_k i_l marks] in *;
  cbn [In] in Hk, Hl; repeat (destruct Hk as [<-|Hk]; [|]); try destruct Hk; repeat (destruct Hl as [<-|Hl]; [|]); try destruct Hl.
Ltac stages := intros x H b r r' Hb Hf He E; cases x H; open_text; walk2.
Lemma st_Au : stage (m_spin (cls [10216; 60]) (cls [95; 100]) (is_c 124) out_Au) (early false false false false) (early true false false false).
Proof. stages. Qed.
Lemma st_Ad : stage (m_spin (is_c 124) (cls [95; 100]) (cls [10217; 62]) out_Ad) (early true false false false) (early true true false false).
Proof. stages. Qed.
Lemma st_Bd : stage (m_spin (is_c 91) (cls [94; 117]) (is_c 124) out_Bd) (early true true false false) (early true true true false).
Proof. stages. Qed.
Lemma st_Bu : stage (m_spin (is_c 124) (cls [94; 117]) (is_c 93) out_Bu) (early true true true false) (early true true true true).
Proof. stages. Qed.
Lemma st_pow : stage m_pow (early false false false false) (early false false false false).
Proof. stages. Qed.
Ltac cases' x H :=
  destruct x as [[|] [|] [|] i j k l]; destruct H as (Hi & Hj & _); cbn [i_sq i_lm i_rm i_i i_j i_k i_l] in *.
Ltac stages' := intros x H b r r' Hb Hf He E; cases' x H; open_text; walk2.
Lemma st_ats : stage (m_lit (lit "@|@") (lit "@")) (early true true true true) (late false false false false false false false).
Proof. stages'. Qed.
Definition plain := late false false false false false false false.
Lemma st_bis : stage (m_bis 10216 10217) plain plain. Proof. unfold plain. stages'. Qed.
Definition half := late true false false false false false false.
Definition plain' := late true true false false false false false.
Lemma st_two : stage (m_two 10216 10217) plain half. Proof. unfold plain, half. stages'. Qed.
Lemma st_bis' : stage (m_bis 91 93) half half. Proof. unfold half. stages'. Qed.
Lemma st_two' : stage (m_two 91 93) half plain'. Proof. unfold half, plain'. stages'. Qed.
Lemma st_s : stage m_s plain' plain'. Proof. unfold plain'. stages'. Qed.
Lemma st_NB : stage m_NB plain' plain'. Proof. unfold plain'. stages'. Qed.
Lemma st_Ab : stage (m_bra (cls [10216; 60]) (cls [10217; 124; 62]) 10216) plain' (late true true true false false false false). Proof. unfold plain'. stages'. Qed.
Lemma st_Ak : stage (m_ket (cls [10217; 62]) (cls [10216; 124; 60]) 10217) (late true true true false false false false) (late true true true true false false false). Proof. stages'. Qed.
Lemma st_Sb : stage (m_bra (is_c 91) (is_c 93) 91) (late true true true true false false false) (late true true true true true false false). Proof. stages'. Qed.
Lemma st_Sk : stage (m_ket (is_c 93) (is_c 91) 93) (late true true true true true false false) (late true true true true true true false). Proof. stages'. Qed.
Definition wrapped := late true true true true true true false.
Definition final := late true true true true true true true.
Lemma st_begin : stage m_begin wrapped wrapped. Proof. unfold wrapped. stages'. Qed.
Lemma st_open_end : stage m_open_end wrapped wrapped. Proof. unfold wrapped. stages'. Qed.
Lemma st_double : stage m_double wrapped wrapped. Proof. unfold wrapped. stages'. Qed.
Lemma st_dot : stage m_double_dot wrapped wrapped. Proof. unfold wrapped. stages'. Qed.
Lemma st_block : stage m_block wrapped final. Proof. unfold wrapped, final. stages'. Qed.
