(* The trees of brackets with massive spinors: the text that _parse makes of them, cut into tokens
   and parsed. *)
From Coq Require Import Ascii String.
From Coq Require Import List ZArith Bool Lia.
From Verif Require Import Base Fld Phase Compute Str MassesThm Regex RegexThm Masses Parse ParseSpec ParseChars ParseWrap ParseOpen ParseVary Text Tensor TensorText.
Import ListNotations.
Open Scope Z_scope.

(* ---- the tokens ---- *)
Lemma skip_short {A} n (l : list A) : (length (skipn n l) <= length l)%nat. Proof. rewrite skipn_length. lia. Qed.
Lemma wlex_fuel n : forall m s, (length s < n)%nat -> (length s < m)%nat -> wlex n s = wlex m s.
Proof.
  induction n as [|n IH]; intros m s Hn Hm; [lia|]. destruct m as [|m]; [lia|]. destruct s as [|c s]; [reflexivity|]. cbn [wlex]. cbn [length] in Hn, Hm.
  assert (T : forall k, (1 <= k)%nat -> wlex n (skipn k (c :: s)) = wlex m (skipn k (c :: s))).
  { intros k Hk. destruct k as [|k]; [lia|]. cbn [skipn]. pose proof (skip_short k s). apply IH; lia. }
  destruct (is_digit c) eqn:D.
  - destruct (literal_ok (digits (c :: s))); [|reflexivity]. rewrite T; [reflexivity|]. cbn [digits]. rewrite D. cbn. lia.
  - destruct (starts_name c) eqn:S.
    + rewrite T; [reflexivity|]. cbn [run]. assert (N : in_name c = true) by (unfold starts_name in S; unfold in_name, is_alnum; rewrite D; destruct (is_letter c); [reflexivity|cbn in *; rewrite S; apply orb_true_r]). rewrite N. cbn. lia.
    + destruct (c =? 39); [rewrite T by lia; reflexivity|]. destruct (c =? 32); [apply IH; lia|]. rewrite (IH m s) by lia. destruct (c =? 42); [|reflexivity]. destruct s as [|d s]; [reflexivity|]. cbn [length] in *. rewrite (IH m s) by lia. reflexivity.
Qed.
Definition wl (s : pystr) : option (list ktok) := wlex (S (length s)) s.
Lemma wl_nil : wl [] = Some []. Proof. reflexivity. Qed.
Lemma wl_at n s : (length s < n)%nat -> wlex n s = wl s. Proof. intros H. apply wlex_fuel; [exact H|lia]. Qed.
Lemma wl_space s : wl (32 :: s) = wl s. Proof. reflexivity. Qed.
Lemma wl_op c s : is_digit c || starts_name c || Parse.cls [39; 32; 42] c = false -> is_wop c = true -> wl (c :: s) = option_map (cons (KOp c)) (wl s).
Proof.
  intros H O. rewrite !orb_false_iff in H. destruct H as [[H1 H2] H3]. cbn in H3. rewrite !orb_false_iff in H3. destruct H3 as (E1 & E2 & E3 & _). unfold wl. cbn [length wlex]. rewrite H1, H2, E1, E2, E3, O. reflexivity.
Qed.
Lemma wlex_digit n c s : is_digit c = true -> wlex (S n) (c :: s) = if literal_ok (digits (c :: s)) then option_map (cons (KNum (number (digits (c :: s))))) (wlex n (skipn (length (digits (c :: s))) (c :: s))) else None.
Proof. intros D. cbn [wlex]. rewrite D. reflexivity. Qed.
Lemma wl_num d c s : is_digit d = true -> is_digit c = false -> wl (d :: c :: s) = option_map (cons (KNum (number [d]))) (wl (c :: s)).
Proof. intros D C. unfold wl at 1. rewrite wlex_digit by exact D. cbn [digits]. rewrite D, C. cbn [literal_ok length skipn]. reflexivity. Qed.
Lemma run_until f w c s : forallb f w = true -> f c = false -> run f (w ++ c :: s) = w.
Proof. intros F C. apply run_app; [|exact C]. apply Forall_forall. intros x I. exact (proj1 (forallb_forall _ _) F x I). Qed.
Lemma wlex_name n c s : is_digit c = false -> starts_name c = true -> wlex (S n) (c :: s) = option_map (cons (KName (run in_name (c :: s)))) (wlex n (skipn (length (run in_name (c :: s))) (c :: s))).
Proof. intros D S. cbn [wlex]. rewrite D, S. reflexivity. Qed.
Lemma wl_name w x c s : is_digit x = false -> starts_name x = true -> forallb in_name (x :: w) = true -> in_name c = false -> wl ((x :: w) ++ c :: s) = option_map (cons (KName (x :: w))) (wl (c :: s)).
Proof.
  intros D S F C. unfold wl at 1. change ((x :: w) ++ c :: s) with (x :: (w ++ c :: s)). rewrite wlex_name by assumption. change (x :: w ++ c :: s) with ((x :: w) ++ c :: s). rewrite run_until, skipn_app' by assumption. rewrite wl_at; [reflexivity|]. cbn [app length]. rewrite app_length. cbn [length]. lia.
Qed.
Lemma until_app u s : ~ In 39 u -> until_quote (u ++ 39 :: s) = u.
Proof. induction u as [|c u IH]; intros N; [reflexivity|]. cbn [app until_quote]. rewrite (proj2 (Z.eqb_neq c 39)) by (intros ->; apply N; left; reflexivity). rewrite IH; [reflexivity|]. intros I. apply N. right. exact I. Qed.
Lemma wlex_quote n s : wlex (S n) (39 :: s) = option_map (cons (KStr (until_quote s))) (wlex n (skipn (length (until_quote s) + 2) (39 :: s))).
Proof. reflexivity. Qed.
Lemma wl_str u s : ~ In 39 u -> wl (39 :: u ++ 39 :: s) = option_map (cons (KStr u)) (wl s).
Proof.
  intros N. unfold wl at 1. rewrite wlex_quote, until_app by exact N.
  replace (skipn (length u + 2) (39 :: u ++ 39 :: s)) with s; [rewrite wl_at; [reflexivity|]; cbn [length]; rewrite app_length; cbn [length]; lia|].
  replace (length u + 2)%nat with (S (length (u ++ [39]))) by (rewrite app_length; cbn; lia). cbn [skipn]. replace (u ++ 39 :: s) with ((u ++ [39]) ++ s) by (rewrite <- app_assoc; reflexivity). rewrite skipn_app'. reflexivity.
Qed.
Lemma wl_quoted c i x s : 0 <= i -> c <> 39 -> x <> 39 -> wl (39 :: c :: dec i ++ x :: 39 :: s) = option_map (cons (KStr (c :: dec i ++ [x]))) (wl s).
Proof.
  intros Hi C X. rewrite <- (wl_str (c :: dec i ++ [x])); [cbn [app]; rewrite <- app_assoc; reflexivity|]. intros [E|I]; [congruence|]. apply in_app_iff in I. destruct I as [I|[I|[]]]; [apply (dec_in i 39 Hi) in I; lia|congruence].
Qed.
Lemma map_some {A B} (f : A -> B) o x : o = Some x -> option_map f o = Some (f x). Proof. intros ->. reflexivity. Qed.
Ltac token :=
  idtac; lazymatch goal with
  | |- wl [] = _ => apply wl_nil
  | |- wl (32 :: _) = _ => rewrite wl_space; token
  | |- wl (39 :: _ :: dec _ ++ _) = _ => rewrite wl_quoted by side; apply map_some; token
  | |- wl (48 :: _) = _ => rewrite wl_num by reflexivity; apply map_some; token
  | |- wl (49 :: _) = _ => rewrite wl_num by reflexivity; apply map_some; token
  | |- wl (1013 :: ?r) = _ => change (1013 :: r) with ([1013] ++ r); rewrite (wl_name [] 1013) by reflexivity; apply map_some; token
  | |- wl (111 :: 80 :: 115 :: ?r) = _ => change (111 :: 80 :: 115 :: r) with ((111 :: [80; 115]) ++ r); rewrite (wl_name [80; 115] 111) by reflexivity; apply map_some; token
  | |- wl (110 :: 117 :: 109 :: 112 :: 121 :: ?r) = _ => change (110 :: 117 :: 109 :: 112 :: 121 :: r) with ((110 :: [117; 109; 112; 121]) ++ r); rewrite (wl_name [117; 109; 112; 121] 110) by reflexivity; apply map_some; token
  | |- wl (98 :: 108 :: 111 :: 99 :: 107 :: ?r) = _ => change (98 :: 108 :: 111 :: 99 :: 107 :: r) with ((98 :: [108; 111; 99; 107]) ++ r); rewrite (wl_name [108; 111; 99; 107] 98) by reflexivity; apply map_some; token
  | |- wl (116 :: 114 :: 97 :: 110 :: 115 :: 112 :: 111 :: 115 :: 101 :: ?r) = _ => change (116 :: 114 :: 97 :: 110 :: 115 :: 112 :: 111 :: 115 :: 101 :: r) with ((116 :: [114; 97; 110; 115; 112; 111; 115; 101]) ++ r); rewrite (wl_name [114; 97; 110; 115; 112; 111; 115; 101] 116) by reflexivity; apply map_some; token
  | |- wl (_ :: _) = _ => rewrite wl_op by reflexivity; apply map_some; token
  end.

(* ---- the trees ---- *)
Definition bra_of (c i : Z) : wast := WoPs (c :: dec i ++ [124]).
Definition ket_of (j c : Z) : wast := WoPs (124 :: dec j ++ [c]).
(* a massive row or column: the first row or column of the index raised or lowered *)
Definition row_of (c : Z) (e : wast) (i : Z) : wast := WSub (WBin BMat e (WNumpy NBlock (WList [WList [bra_of c i]; WList [bra_of c (i + 1)]]))) (Some 0, Some 1) (None, None).
Definition col_of (e : wast) (j c : Z) : wast := WSub (WBin BMat (WNumpy NBlock (WList [ket_of j c; ket_of (j + 1) c])) e) (None, None) (Some 0, Some 1).
Lemma parse_by s u ts a : back s = u -> wl u = Some ts -> w_sum (12 * length ts + 12) ts = Some (a, []) -> wast_parse (back s) = Ok a.
Proof. intros -> L P. unfold wast_parse. fold (wl u). rewrite L, P. reflexivity. Qed.
Ltac tree :=
  eapply parse_by; [back_text|token|];
  unfold row_of, col_of, bra_of, ket_of;
  repeat match goal with |- context [KStr (?c :: dec ?i ++ ?r)] => generalize (c :: dec i ++ r); intros ? end;
  vm_compute; reflexivity.
Definition angle (o : Z) : Prop := o = 10216 \/ o = 60.
Definition shut (c : Z) : Prop := c = 10217 \/ c = 62.
Definition low (k : Z) : Prop := k = 95 \/ k = 100.
Definition up (k : Z) : Prop := k = 94 \/ k = 117.
Ltac one H := destruct H as [-> | ->].
Section Two.
Variables i j : Z.
Hypothesis (Hi : 0 <= i) (Hj : 0 <= j).
(* (ϵ@block([[⟨{i}|], [⟨{(i + 1)}|]]))[0:1, :]@|{j}⟩ *)
Definition mid_A1 : pystr := 40 :: 1013 :: 64 :: 98 :: 108 :: 111 :: 99 :: 107 :: 40 :: 91 :: 91 :: 10216 :: dec i ++ 124 :: 93 :: 44 :: 32 :: 91 :: 10216 :: dec (i + 1) ++ 124 :: 93 :: 93 :: 41 :: 41 :: 91 :: 48 :: 58 :: 49 :: 44 :: 32 :: 58 :: 93 :: 64 :: 124 :: dec j ++ 10217 :: [].
Lemma front_A10 k : low k -> front (10216 :: dec i ++ k :: 124 :: dec j ++ 10217 :: []) = mid_A1.
Proof. unfold angle, shut, low, up, mid_A1. intros Hk. one Hk; front_text. Qed.
Lemma front_A1 o k c : angle o -> low k -> shut c -> front (o :: dec i ++ k :: 124 :: dec j ++ c :: []) = mid_A1.
Proof. intros Ho Hk Hc. rewrite <- (front_A10 k) by assumption. apply front_norm; unfold angle, shut, low in *; one Ho; one Hk; one Hc; solve [texts|normal; reflexivity]. Qed.
Lemma tree_A1 : wast_parse (back mid_A1) = Ok (WBin BMat (row_of 10216 WEps i) (ket_of j 10217)).
Proof. unfold mid_A1. tree. Qed.
(* ⟨{i}|@(block([|{j}⟩, |{(j + 1)}⟩])@-ϵ)[:, 0:1] *)
Definition mid_A2 : pystr := 10216 :: dec i ++ 124 :: 64 :: 40 :: 98 :: 108 :: 111 :: 99 :: 107 :: 40 :: 91 :: 124 :: dec j ++ 10217 :: 44 :: 32 :: 124 :: dec (j + 1) ++ 10217 :: 93 :: 41 :: 64 :: 45 :: 1013 :: 41 :: 91 :: 58 :: 44 :: 32 :: 48 :: 58 :: 49 :: 93 :: [].
Lemma front_A20 k : low k -> front (10216 :: dec i ++ 124 :: dec j ++ k :: 10217 :: []) = mid_A2.
Proof. unfold angle, shut, low, up, mid_A2. intros Hk. one Hk; front_text. Qed.
Lemma front_A2 o k c : angle o -> low k -> shut c -> front (o :: dec i ++ 124 :: dec j ++ k :: c :: []) = mid_A2.
Proof. intros Ho Hk Hc. rewrite <- (front_A20 k) by assumption. apply front_norm; unfold angle, shut, low in *; one Ho; one Hk; one Hc; solve [texts|normal; reflexivity]. Qed.
Lemma tree_A2 : wast_parse (back mid_A2) = Ok (WBin BMat (bra_of 10216 i) (col_of (WNeg WEps) j 10217)).
Proof. unfold mid_A2. tree. Qed.
(* (ϵ@block([[⟨{i}|], [⟨{(i + 1)}|]]))[0:1, :]@(block([|{j}⟩, |{(j + 1)}⟩])@-ϵ)[:, 0:1] *)
Definition mid_A3 : pystr := 40 :: 1013 :: 64 :: 98 :: 108 :: 111 :: 99 :: 107 :: 40 :: 91 :: 91 :: 10216 :: dec i ++ 124 :: 93 :: 44 :: 32 :: 91 :: 10216 :: dec (i + 1) ++ 124 :: 93 :: 93 :: 41 :: 41 :: 91 :: 48 :: 58 :: 49 :: 44 :: 32 :: 58 :: 93 :: 64 :: 40 :: 98 :: 108 :: 111 :: 99 :: 107 :: 40 :: 91 :: 124 :: dec j ++ 10217 :: 44 :: 32 :: 124 :: dec (j + 1) ++ 10217 :: 93 :: 41 :: 64 :: 45 :: 1013 :: 41 :: 91 :: 58 :: 44 :: 32 :: 48 :: 58 :: 49 :: 93 :: [].
Lemma front_A30 k l : low k -> low l -> front (10216 :: dec i ++ k :: 124 :: dec j ++ l :: 10217 :: []) = mid_A3.
Proof. unfold angle, shut, low, up, mid_A3. intros Hk Hl. one Hk; one Hl; front_text. Qed.
Lemma front_A3 o k c l : angle o -> low k -> shut c -> low l -> front (o :: dec i ++ k :: 124 :: dec j ++ l :: c :: []) = mid_A3.
Proof. intros Ho Hk Hc Hl. rewrite <- (front_A30 k l) by assumption. apply front_norm; unfold angle, shut, low in *; one Ho; one Hk; one Hc; one Hl; solve [texts|normal; reflexivity]. Qed.
Lemma tree_A3 : wast_parse (back mid_A3) = Ok (WBin BMat (row_of 10216 WEps i) (col_of (WNeg WEps) j 10217)).
Proof. unfold mid_A3. tree. Qed.
(* (-ϵ@block([[[{i}|], [[{(i + 1)}|]]))[0:1, :]@|{j}] *)
Definition mid_B1 : pystr := 40 :: 45 :: 1013 :: 64 :: 98 :: 108 :: 111 :: 99 :: 107 :: 40 :: 91 :: 91 :: 91 :: dec i ++ 124 :: 93 :: 44 :: 32 :: 91 :: 91 :: dec (i + 1) ++ 124 :: 93 :: 93 :: 41 :: 41 :: 91 :: 48 :: 58 :: 49 :: 44 :: 32 :: 58 :: 93 :: 64 :: 124 :: dec j ++ 93 :: [].
Lemma front_B10 k : up k -> front (91 :: dec i ++ k :: 124 :: dec j ++ 93 :: []) = mid_B1.
Proof. unfold angle, shut, low, up, mid_B1. intros Hk. one Hk; front_text. Qed.
Lemma tree_B1 : wast_parse (back mid_B1) = Ok (WBin BMat (row_of 91 (WNeg WEps) i) (ket_of j 93)).
Proof. unfold mid_B1. tree. Qed.
(* [{i}|@(block([|{j}], |{(j + 1)}]])@ϵ)[:, 0:1] *)
Definition mid_B2 : pystr := 91 :: dec i ++ 124 :: 64 :: 40 :: 98 :: 108 :: 111 :: 99 :: 107 :: 40 :: 91 :: 124 :: dec j ++ 93 :: 44 :: 32 :: 124 :: dec (j + 1) ++ 93 :: 93 :: 41 :: 64 :: 1013 :: 41 :: 91 :: 58 :: 44 :: 32 :: 48 :: 58 :: 49 :: 93 :: [].
Lemma front_B20 k : up k -> front (91 :: dec i ++ 124 :: dec j ++ k :: 93 :: []) = mid_B2.
Proof. unfold angle, shut, low, up, mid_B2. intros Hk. one Hk; front_text. Qed.
Lemma tree_B2 : wast_parse (back mid_B2) = Ok (WBin BMat (bra_of 91 i) (col_of WEps j 93)).
Proof. unfold mid_B2. tree. Qed.
(* (-ϵ@block([[[{i}|], [[{(i + 1)}|]]))[0:1, :]@(block([|{j}], |{(j + 1)}]])@ϵ)[:, 0:1] *)
Definition mid_B3 : pystr := 40 :: 45 :: 1013 :: 64 :: 98 :: 108 :: 111 :: 99 :: 107 :: 40 :: 91 :: 91 :: 91 :: dec i ++ 124 :: 93 :: 44 :: 32 :: 91 :: 91 :: dec (i + 1) ++ 124 :: 93 :: 93 :: 41 :: 41 :: 91 :: 48 :: 58 :: 49 :: 44 :: 32 :: 58 :: 93 :: 64 :: 40 :: 98 :: 108 :: 111 :: 99 :: 107 :: 40 :: 91 :: 124 :: dec j ++ 93 :: 44 :: 32 :: 124 :: dec (j + 1) ++ 93 :: 93 :: 41 :: 64 :: 1013 :: 41 :: 91 :: 58 :: 44 :: 32 :: 48 :: 58 :: 49 :: 93 :: [].
Lemma front_B30 k l : up k -> up l -> front (91 :: dec i ++ k :: 124 :: dec j ++ l :: 93 :: []) = mid_B3.
Proof. unfold angle, shut, low, up, mid_B3. intros Hk Hl. one Hk; one Hl; front_text. Qed.
Lemma tree_B3 : wast_parse (back mid_B3) = Ok (WBin BMat (row_of 91 (WNeg WEps) i) (col_of WEps j 93)).
Proof. unfold mid_B3. tree. Qed.
End Two.
