(* The trees and the values of sums of products of brackets with massive spinors. *)
From Coq Require Import Ascii String.
From Coq Require Import List ZArith Bool Lia Field.
From Verif Require Import Base Fld Particle Index Phase Compute Str Regex RegexThm Masses MassesThm Parse ParseChars Text Tensor TensorText TensorTree TensorEval TensorSum TensorSumText.
Import ListNotations.
Open Scope Z_scope.

(* ---- the tokens ---- *)
Definition k_call (t : pystr) : list ktok := [KName [111; 80; 115]; KOp 40; KStr t; KOp 41].
Definition k_bra (c i : Z) := k_call (c :: dec i ++ [124]).
Definition k_ket (j c : Z) := k_call (124 :: dec j ++ [c]).
Definition k_block : list ktok := [KName [110; 117; 109; 112; 121]; KOp 46; KName [98; 108; 111; 99; 107]; KOp 40].
Definition k_neg (b : bool) : list ktok := if b then [KOp 45] else [].
Definition k_row (sq : bool) (i : Z) : list ktok :=
  KOp 40 :: k_neg sq ++ KName [1013] :: KOp 64 :: k_block ++ KOp 91 :: KOp 91 :: k_bra (bra_c sq) i ++ KOp 93 :: KOp 44 :: KOp 91 :: k_bra (bra_c sq) (i + 1) ++
  [KOp 93; KOp 93; KOp 41; KOp 41; KOp 91; KNum 0; KOp 58; KNum 1; KOp 44; KOp 58; KOp 93].
Definition k_col (sq : bool) (j : Z) : list ktok :=
  KOp 40 :: k_block ++ KOp 91 :: k_ket j (ket_c sq) ++ KOp 44 :: k_ket (j + 1) (ket_c sq) ++ KOp 93 :: KOp 41 :: KOp 64 :: k_neg (negb sq) ++
  [KName [1013]; KOp 41; KOp 91; KOp 58; KOp 44; KNum 0; KOp 58; KNum 1; KOp 93].
Definition massive (x : item) : bool := i_lm x || i_rm x.
Definition k_left (x : item) := if i_lm x then k_row (i_sq x) (i_i x) else k_bra (bra_c (i_sq x)) (i_i x).
Definition k_right (x : item) := if i_rm x then k_col (i_sq x) (i_j x) else k_ket (i_j x) (ket_c (i_sq x)).
Definition two_text (x : item) : pystr := bra_c (i_sq x) :: dec (i_i x) ++ 124 :: dec (i_j x) ++ [ket_c (i_sq x)].
Definition k_item (x : item) : list ktok := if massive x then k_left x ++ KOp 64 :: k_right x else k_call (two_text x).
Lemma wl_two c i j k s : 0 <= i -> 0 <= j -> c <> 39 -> k <> 39 -> wl (39 :: c :: dec i ++ 124 :: dec j ++ k :: 39 :: s) = option_map (cons (KStr (c :: dec i ++ 124 :: dec j ++ [k]))) (wl s).
Proof.
  intros Hi Hj C X. rewrite <- (wl_str (c :: dec i ++ 124 :: dec j ++ [k])); [cbn [app]; repeat (rewrite <- app_assoc; cbn [app]); reflexivity|].
  intros [E|I]; [congruence|]. apply in_app_iff in I. destruct I as [I|[E|I]]; [apply (dec_in i 39 Hi) in I; lia|discriminate E|]. apply in_app_iff in I. destruct I as [I|[E|[]]]; [apply (dec_in j 39 Hj) in I; lia|congruence].
Qed.
Ltac token2 W :=
  idtac; lazymatch goal with
  | |- wl (32 :: _) = _ => rewrite wl_space; token2 W
  | |- wl (39 :: _ :: dec _ ++ 124 :: dec _ ++ _) = _ => rewrite wl_two by side; apply map_some; token2 W
  | |- wl (39 :: _ :: dec _ ++ _) = _ => rewrite wl_quoted by side; apply map_some; token2 W
  | |- wl (48 :: _) = _ => rewrite wl_num by reflexivity; apply map_some; token2 W
  | |- wl (49 :: _) = _ => rewrite wl_num by reflexivity; apply map_some; token2 W
  | |- wl (1013 :: ?r) = _ => change (1013 :: r) with ([1013] ++ r); rewrite (wl_name [] 1013) by reflexivity; apply map_some; token2 W
  | |- wl (111 :: 80 :: 115 :: ?r) = _ => change (111 :: 80 :: 115 :: r) with ((111 :: [80; 115]) ++ r); rewrite (wl_name [80; 115] 111) by reflexivity; apply map_some; token2 W
  | |- wl (110 :: 117 :: 109 :: 112 :: 121 :: ?r) = _ => change (110 :: 117 :: 109 :: 112 :: 121 :: r) with ((110 :: [117; 109; 112; 121]) ++ r); rewrite (wl_name [117; 109; 112; 121] 110) by reflexivity; apply map_some; token2 W
  | |- wl (98 :: 108 :: 111 :: 99 :: 107 :: ?r) = _ => change (98 :: 108 :: 111 :: 99 :: 107 :: r) with ((98 :: [108; 111; 99; 107]) ++ r); rewrite (wl_name [108; 111; 99; 107] 98) by reflexivity; apply map_some; token2 W
  | |- wl (_ :: _) = _ => rewrite wl_op by reflexivity; apply map_some; token2 W
  | |- _ => exact W
  end.
Lemma item_tokens x r ts : item_ok x -> wl r = Some ts -> wl (final x r) = Some (k_item x ++ ts).
Proof.
  intros H W. unfold final, k_item, massive, k_left, k_right, two_text. cases' x H; open_text; cbv [k_row k_col k_bra k_ket k_call k_block k_neg negb bra_c ket_c]; cbn [app orb]; rewrite <- ?app_assoc; cbn [app]; token2 W.
Qed.
Lemma final_head x r : exists c t, final x r = c :: t /\ (c = 40 \/ c = 111).
Proof. unfold final. destruct x as [[|] [|] [|] i j k l]; open_text; eexists; eexists; (split; [reflexivity|lia]). Qed.
Lemma wlex_star n c s : wlex (S n) (42 :: c :: s) = if c =? 42 then option_map (cons KPow) (wlex n s) else option_map (cons (KOp 42)) (wlex n (c :: s)).
Proof. reflexivity. Qed.
Lemma wl_star s : match s with c :: _ => c <> 42 | [] => True end -> wl (42 :: s) = option_map (cons (KOp 42)) (wl s).
Proof. destruct s as [|c s]; intros N; [reflexivity|]. unfold wl at 1. rewrite wlex_star, (proj2 (Z.eqb_neq c 42) N). reflexivity. Qed.
Fixpoint k_rest (l : list (Z * item)) : list ktok := match l with [] => [] | (o, x) :: l' => KOp o :: k_item x ++ k_rest l' end.
Lemma rest_tokens l : rest_ok l -> wl (tail_text final l) = Some (k_rest l).
Proof.
  intros H. induction H as [|[o x] l [H1 H2] H IH]; [reflexivity|]. cbn [tail_text k_rest fst snd] in *. assert (W := item_tokens x _ _ H2 IH). destruct (final_head x (tail_text final l)) as (c & t & E & C).
  destruct H1 as [-> |[-> | ->]]; [rewrite wl_op by reflexivity; apply map_some, W|rewrite wl_op by reflexivity; apply map_some, W|]. rewrite wl_star; [apply map_some, W|]. rewrite E. lia.
Qed.
Lemma all_tokens x l : item_ok x -> rest_ok l -> wl (all_text final x l) = Some (k_item x ++ k_rest l).
Proof. intros H1 H. apply item_tokens; [exact H1|apply rest_tokens, H]. Qed.

(* ---- the trees ---- *)
Definition eps_of (b : bool) : wast := if b then WNeg WEps else WEps.
Definition t_left (x : item) : wast := if i_lm x then row_of (bra_c (i_sq x)) (eps_of (i_sq x)) (i_i x) else bra_of (bra_c (i_sq x)) (i_i x).
Definition t_right (x : item) : wast := if i_rm x then col_of (eps_of (negb (i_sq x))) (i_j x) (ket_c (i_sq x)) else ket_of (i_j x) (ket_c (i_sq x)).
Definition t_first (x : item) : wast := if massive x then WBin BMat (t_left x) (t_right x) else WoPs (two_text x).
Definition t_times (a : wast) (x : item) : wast := if massive x then WBin BMat (WBin BMul a (t_left x)) (t_right x) else WBin BMul a (WoPs (two_text x)).
Definition stops (r : list ktok) : Prop := match r with [] => True | KOp o :: _ => o = 43 \/ o = 45 \/ o = 42 \/ o = 64 | _ => False end.
Ltac factor := unfold t_left, t_right, k_left, k_right, eps_of, k_row, k_col, row_of, col_of, k_bra, k_ket, bra_of, ket_of, k_call, k_block, k_neg;
  repeat match goal with |- context [?c :: dec ?i ++ ?r] => generalize (c :: dec i ++ r); intros ? end.
Lemma left_factor x f r : w_factor (60 + f) (k_left x ++ KOp 64 :: r) = Some (t_left x, KOp 64 :: r).
Proof. destruct x as [[|] [|] m i j k l]; cbn [i_sq i_lm i_i]; factor; vm_compute; reflexivity. Qed.
Lemma right_factor x f r : stops r -> w_factor (60 + f) (k_right x ++ r) = Some (t_right x, r).
Proof.
  intros S. destruct r as [|[z|z|z|o|] r]; try contradiction S; [|destruct S as [-> |[-> |[-> | ->]]]]; destruct x as [[|] m [|] i j k l]; cbn [i_sq i_rm i_j]; factor; vm_compute; reflexivity.
Qed.
Lemma call_factor t f r : stops r -> w_factor (60 + f) (k_call t ++ r) = Some (WoPs t, r).
Proof. intros S. destruct r as [|[z|z|z|o|] r]; try contradiction S; [|destruct S as [-> |[-> |[-> | ->]]]]; unfold k_call; vm_compute; reflexivity. Qed.
Fixpoint k_times (its : list item) : list ktok := match its with [] => [] | x :: t => KOp 42 :: k_item x ++ k_times t end.
Definition ends_term (r : list ktok) : Prop := match r with [] => True | KOp o :: _ => o = 43 \/ o = 45 | _ => False end.
Lemma ends_stops r : ends_term r -> stops r. Proof. destruct r as [|[z|z|z|o|] r]; cbn; try tauto. Qed.
Lemma times_stops its r : ends_term r -> stops (k_times its ++ r). Proof. destruct its; [apply ends_stops|]. intros _. cbn. tauto. Qed.
Lemma terms_mul f a r : w_terms (S f) a (KOp 42 :: r) = match w_factor f r with Some (b, r') => w_terms f (WBin BMul a b) r' | None => None end. Proof. reflexivity. Qed.
Lemma terms_mat f a r : w_terms (S f) a (KOp 64 :: r) = match w_factor f r with Some (b, r') => w_terms f (WBin BMat a b) r' | None => None end. Proof. reflexivity. Qed.
Lemma terms_end f a r : ends_term r -> w_terms (S f) a r = Some (a, r).
Proof. destruct r as [|[z|z|z|o|] r]; try contradiction; [reflexivity|]. intros [-> | ->]; reflexivity. Qed.
Lemma terms_times its : forall f a r, ends_term r -> (60 + 2 * length its < f)%nat -> w_terms f a (k_times its ++ r) = Some (fold_left t_times its a, r).
Proof.
  induction its as [|x its IH]; intros f a r E L; cbn [length] in L.
  - destruct f as [|f]; [lia|]. apply terms_end, E.
  - destruct f as [|f]; [lia|]. cbn [k_times app fold_left]. rewrite terms_mul, <- app_assoc. assert (S := times_stops its r E). replace f with (60 + (f - 60))%nat at 1 by lia. unfold k_item, t_times at 2. destruct (massive x).
    + rewrite <- app_assoc. cbn [app]. rewrite left_factor. destruct f as [|f]; [lia|]. rewrite terms_mat. replace f with (60 + (f - 60))%nat at 1 by lia. rewrite (right_factor x _ _ S). apply IH; [exact E|lia].
    + rewrite (call_factor _ _ _ S). apply IH; [exact E|lia].
Qed.
Definition t_term (x : item) (its : list item) : wast := fold_left t_times its (t_first x).
Lemma term_S f ts : w_term (S f) ts = match w_factor f ts with Some (a, r) => w_terms f a r | None => None end. Proof. reflexivity. Qed.
Lemma term_tree x its f r : ends_term r -> (63 + 2 * length its < f)%nat -> w_term f (k_item x ++ k_times its ++ r) = Some (t_term x its, r).
Proof.
  intros E L. destruct f as [|f]; [lia|]. rewrite term_S. assert (S := times_stops its r E). unfold k_item, t_term, t_first. replace f with (60 + (f - 60))%nat at 1 by lia. destruct (massive x).
  - rewrite <- app_assoc. cbn [app]. rewrite left_factor. destruct f as [|f]; [lia|]. rewrite terms_mat. replace f with (60 + (f - 60))%nat at 1 by lia. rewrite (right_factor x _ _ S). apply terms_times; [exact E|lia].
  - rewrite (call_factor _ _ _ S). apply terms_times; [exact E|lia].
Qed.
(* sums *)
Definition term := (item * list item)%type.
Definition is_pm (o : Z) : Prop := o = 43 \/ o = 45.
Fixpoint k_sums (l : list (Z * term)) : list ktok := match l with [] => [] | (o, (x, its)) :: l' => KOp o :: k_item x ++ k_times its ++ k_sums l' end.
Definition t_plus (a : wast) (y : Z * term) : wast := WBin (if fst y =? 43 then BAdd else BSub) a (t_term (fst (snd y)) (snd (snd y))).
Definition t_sum (y : term) (l : list (Z * term)) : wast := fold_left t_plus l (t_term (fst y) (snd y)).
Definition pms (l : list (Z * term)) : Prop := Forall (fun y => is_pm (fst y)) l.
Lemma sums_ends l : pms l -> ends_term (k_sums l). Proof. intros [|[o [x its]] l' H _]; cbn; [exact I|exact H]. Qed.
Fixpoint size (l : list (Z * term)) : nat := match l with [] => O | (_, (_, its)) :: l' => (3 + 2 * length its + size l')%nat end.
Lemma sums_pm f a o r : is_pm o -> w_sums (S f) a (KOp o :: r) = match w_term f r with Some (b, r') => w_sums f (WBin (if o =? 43 then BAdd else BSub) a b) r' | None => None end.
Proof. intros [-> | ->]; reflexivity. Qed.
Lemma sums_tree l : pms l -> forall f a, (63 + size l < f)%nat -> w_sums f a (k_sums l) = Some (fold_left t_plus l a, []).
Proof.
  intros H. induction H as [|[o [x its]] l H1 H IH]; intros f a L.
  - destruct f as [|f]; [lia|]. reflexivity.
  - cbn [size] in L. destruct f as [|f]; [lia|]. cbn [k_sums fold_left]. rewrite sums_pm by exact H1. rewrite term_tree; [|apply sums_ends, H|lia]. apply IH. lia.
Qed.
Lemma sum_S f ts : w_sum (S f) ts = match w_term f ts with Some (a, r) => w_sums f a r | None => None end. Proof. reflexivity. Qed.
Lemma sum_tree x its l f : pms l -> (66 + 2 * length its + size l < f)%nat -> w_sum f (k_item x ++ k_times its ++ k_sums l) = Some (t_sum (x, its) l, []).
Proof. intros H L. destruct f as [|f]; [lia|]. rewrite sum_S, term_tree; [|apply sums_ends, H|lia]. apply sums_tree; [exact H|lia]. Qed.
(* there is enough fuel *)
Lemma item_len x : (4 <= length (k_item x))%nat.
Proof. unfold k_item. destruct (massive x); [|cbn; lia]. rewrite app_length. unfold k_left, k_right. destruct (i_lm x), (i_rm x); cbn; repeat (rewrite ?app_length; cbn [length]); lia. Qed.
Lemma times_len its : (4 * length its <= length (k_times its))%nat.
Proof. induction its as [|x its IH]; [cbn; lia|]. cbn [k_times length]. rewrite app_length. pose proof (item_len x). lia. Qed.
Lemma sums_len l : (size l <= length (k_sums l))%nat.
Proof. induction l as [|[o [x its]] l IH]; [cbn; lia|]. cbn [k_sums size length]. rewrite !app_length. pose proof (item_len x). pose proof (times_len its). lia. Qed.
Lemma massive_len x : massive x = true -> (12 <= length (k_item x))%nat.
Proof. intros M. unfold k_item. rewrite M. rewrite app_length. unfold massive in M. unfold k_left, k_right. destruct (i_lm x), (i_rm x); try discriminate M; cbn; repeat (rewrite ?app_length; cbn [length]); lia. Qed.
(* as a list of brackets with the signs between them *)
Definition by_stars (its : list item) : list (Z * item) := map (pair 42) its.
Fixpoint flat (l : list (Z * term)) : list (Z * item) := match l with [] => [] | (o, (x, its)) :: l' => (o, x) :: by_stars its ++ flat l' end.
Lemma rest_app u v : k_rest (u ++ v) = k_rest u ++ k_rest v.
Proof. induction u as [|[o x] u IH]; [reflexivity|]. cbn [app k_rest]. rewrite IH, app_assoc. reflexivity. Qed.
Lemma rest_stars its : k_rest (by_stars its) = k_times its.
Proof. induction its as [|x its IH]; [reflexivity|]. cbn. fold (by_stars its). rewrite IH. reflexivity. Qed.
Lemma rest_flat l : k_rest (flat l) = k_sums l.
Proof. induction l as [|[o [x its]] l IH]; [reflexivity|]. cbn [flat k_rest k_sums]. rewrite rest_app, rest_stars, IH. reflexivity. Qed.
Definition items_of (y : term) : list item := fst y :: snd y.
Definition all_items (y : term) (l : list (Z * term)) : list item := items_of y ++ concat (map (fun z => items_of (snd z)) l).
Lemma some_massive l : (exists x, In x l /\ massive x = true) -> (12 <= length (concat (map k_item l)))%nat.
Proof. induction l as [|y l IH]; intros (x & I & M); [destruct I|]. cbn [map concat]. rewrite app_length. destruct I as [-> |I]; [pose proof (massive_len x M); lia|]. pose proof (IH (ex_intro _ x (conj I M))). lia. Qed.
Lemma tokens_all y l : (length (concat (map k_item (all_items y l))) <= length (k_item (fst y) ++ k_times (snd y) ++ k_sums l))%nat.
Proof.
  assert (T : forall its, (length (concat (map k_item its)) <= length (k_times its))%nat) by (induction its as [|x its IH]; [cbn; lia|]; cbn [map concat k_times length]; rewrite !app_length; lia).
  assert (S : forall l : list (Z * term), (length (concat (map k_item (concat (map (fun z => items_of (snd z)) l)))) <= length (k_sums l))%nat).
  { induction l0 as [|[o [x its]] l0 IH]; [cbn; lia|]. cbn [map concat k_sums length snd]. unfold items_of at 1. cbn [fst snd]. rewrite map_app, concat_app, !app_length. cbn [map concat]. rewrite app_length. specialize (T its). lia. }
  unfold all_items, items_of at 1. rewrite map_app, concat_app, !app_length. cbn [map concat]. rewrite app_length. specialize (T (snd y)). specialize (S l). lia.
Qed.
Definition sum_ok (y : term) (l : list (Z * term)) : Prop := pms l /\ Forall item_ok (all_items y l).
Lemma flat_ok y l : sum_ok y l -> item_ok (fst y) /\ rest_ok (by_stars (snd y) ++ flat l).
Proof.
  intros [P F]. unfold all_items, items_of at 1 in F. cbn [app] in F. rewrite Forall_cons_iff, Forall_app in F. destruct F as (F1 & F2 & F3). split; [exact F1|]. apply Forall_app.
  assert (T : forall its, Forall item_ok its -> Forall (fun y => is_o (fst y) /\ item_ok (snd y)) (by_stars its)).
  { intros its H. apply Forall_map. eapply Forall_impl; [|exact H]. intros a Ha. cbn. unfold is_o. tauto. }
  split; [apply T, F2|]. clear F1 F2. induction P as [|[o [x its]] l P1 P IH]; [constructor|]. cbn [map concat snd fst] in F3. unfold items_of at 1 in F3. cbn [fst snd app] in F3. rewrite Forall_cons_iff, Forall_app in F3. destruct F3 as (A & B & C).
  cbn [flat]. constructor; [split; [cbn in *; unfold is_pm, is_o in *; tauto|exact A]|]. apply Forall_app. split; [apply T, B|apply IH, C].
Qed.
Lemma parse_sum y l : sum_ok y l -> (exists x, In x (all_items y l) /\ massive x = true) -> wast_parse (back (all_text plain (fst y) (by_stars (snd y) ++ flat l))) = Ok (t_sum y l).
Proof.
  intros K M. destruct (flat_ok y l K) as [H1 H]. eapply parse_by; [apply back_sum; assumption|rewrite all_tokens by assumption; reflexivity|].
  rewrite rest_app, rest_stars, rest_flat. destruct y as [x its]. cbn [fst snd]. apply sum_tree; [apply K|].
  pose proof (tokens_all (x, its) l) as T. pose proof (some_massive _ M) as T2. cbn [fst snd] in T. pose proof (sums_len l). pose proof (times_len its). rewrite !app_length in *. lia.
Qed.
