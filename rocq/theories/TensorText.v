(* What _parse makes of brackets with massive spinors. *)
From Coq Require Import Ascii String.
From Coq Require Import List ZArith Bool Lia.
From Verif Require Import Base Str MassesThm Regex RegexThm Parse ParseSpec ParseChars ParseWrap ParseOpen ParseVary.
Import ListNotations.
Open Scope Z_scope.

(* ---- one replacement, character by character ---- *)
Section Walk.
Variable m : pystr -> pystr -> option (nat * pystr).
Lemma step_eq b c r r' : m b (c :: r) = None -> re_sub m (c :: b) 0 r = r' -> re_sub m b 0 (c :: r) = c :: r'.
Proof. intros E <-. apply sub_step. exact E. Qed.
Lemma dec_eq b i r r' : 0 <= i -> (forall b d s, is_digit d = true -> m b (d :: s) = None) -> re_sub m (rev (dec i) ++ b) 0 r = r' -> re_sub m b 0 (dec i ++ r) = dec i ++ r'.
Proof. intros Hi D <-. apply sub_plain. intros b' c s I. apply D. apply is_digit_iff. exact (dec_in i c Hi I). Qed.
Lemma hit_eq b u r r' repl : u <> [] -> m b (u ++ r) = Some (length u, repl) -> re_sub m (rev u ++ b) 0 r = r' -> re_sub m b 0 (u ++ r) = repl ++ r'.
Proof. intros N E <-. apply sub_match; assumption. Qed.
Lemma nil_eq b : re_sub m b 0 [] = []. Proof. reflexivity. Qed.
End Walk.
(* a matcher that looks at the first character first *)
Lemma sub_avoid m (L : list Z) : (forall b c s, cls L c = false -> m b (c :: s) = None) -> forall u, (forall c, In c u -> cls L c = false) -> re_sub m [] 0 u = u.
Proof. intros H u N. rewrite <- (app_nil_r u) at 1. rewrite (sub_plain m u); [rewrite app_nil_r; reflexivity|]. intros b c s I. apply H, N, I. Qed.
(* the characters of the texts *)
Definition only (L : list Z) (u : pystr) : Prop := forall c, In c u -> is_digit c = true \/ cls L c = true.
Lemma only_app L u v : only L u -> only L v -> only L (u ++ v). Proof. intros A B c I. apply in_app_iff in I. destruct I; auto. Qed.
Lemma only_cons L c v : (is_digit c || cls L c) = true -> only L v -> only L (c :: v). Proof. intros A B x [<-|I]; [apply orb_true_iff; exact A|auto]. Qed.
Lemma only_nil L : only L []. Proof. intros c []. Qed.
Lemma only_dec L i : 0 <= i -> only L (dec i). Proof. intros H c I. left. apply is_digit_iff. exact (dec_in i c H I). Qed.
Lemma only_not L M u : only L u -> forallb (fun c => negb (is_digit c)) M = true -> forallb (fun c => negb (cls M c)) L = true -> forall c, In c u -> cls M c = false.
Proof.
  intros O D A c I. destruct (cls M c) eqn:E; [|reflexivity]. exfalso. assert (X : In c M) by (unfold cls in E; apply existsb_exists in E; destruct E as (x & Ix & Ex); apply Z.eqb_eq in Ex; subst x; exact Ix).
  destruct (O c I) as [H|H].
  - apply (proj1 (forallb_forall _ _) D) in X. rewrite H in X. discriminate X.
  - unfold cls in H. apply existsb_exists in H. destruct H as (x & Ix & Ex). apply Z.eqb_eq in Ex. subst x. apply (proj1 (forallb_forall _ _) A) in Ix. rewrite E in Ix. discriminate Ix.
Qed.
Lemma pass_none m M L u : (forall b c s, cls M c = false -> m b (c :: s) = None) -> forallb (fun c => negb (is_digit c)) M = true -> forallb (fun c => negb (cls M c)) L = true -> only L u -> re_sub m [] 0 u = u.
Proof. intros H D A O. apply (sub_avoid m M H). exact (only_not L M u O D A). Qed.
Lemma cls_no k c : cls [k] c = false -> c <> k. Proof. unfold cls. cbn. rewrite orb_false_r. apply Z.eqb_neq. Qed.
Lemma cls_no2 k l c : cls [k; l] c = false -> c <> k /\ c <> l. Proof. unfold cls. cbn. rewrite orb_false_r, orb_false_iff, !Z.eqb_neq. auto. Qed.

(* replacements with a literal of the pattern that is not in the text *)
Lemma oPs_none u : ~ In 80 u -> re_sub m_oPs [] 0 u = u.
Proof.
  intros N. assert (H : forall b c s, (exists p, u = p ++ c :: s) -> m_oPs b (c :: s) = None).
  { intros b c s (p & E). unfold m_oPs. assert (Q : forall k, last_oPs k (c :: s) = None); [|rewrite Q; reflexivity]. induction k as [|k IH]; [reflexivity|]. cbn [last_oPs]. destruct (starts (lit "oPs") (skipn (S k) (c :: s))) eqn:X; [|exact IH].
    exfalso. apply N. rewrite E. apply in_app_iff. right. apply starts_spec in X. destruct X as (v & X). rewrite <- (firstn_skipn (S k) (c :: s)). apply in_app_iff. right. rewrite X. right. left. reflexivity. }
  assert (G : forall r p b, u = p ++ r -> re_sub m_oPs b 0 r = r).
  { induction r as [|c r IH]; intros p b E; [reflexivity|]. rewrite sub_step by (apply H; exists p; exact E). f_equal. apply (IH (p ++ [c])). rewrite <- app_assoc. exact E. }
  apply (G u []). reflexivity.
Qed.
Lemma rat_none u : ~ In 47 u -> re_sub m_rat [] 0 u = u.
Proof.
  intros N. assert (H : forall b s, (exists p, u = p ++ s) -> m_rat b s = None).
  { intros b s (p & E). unfold m_rat. destruct (digits s) as [|d ds] eqn:D; [reflexivity|]. destruct (skipn (length (d :: ds)) s) as [|x r] eqn:S; [reflexivity|]. destruct (x =? 47) eqn:X; [|reflexivity]. apply Z.eqb_eq in X. subst x.
    exfalso. apply N. rewrite E. apply in_app_iff. right. rewrite <- (firstn_skipn (length (d :: ds)) s), S. apply in_app_iff. right. left. reflexivity. }
  assert (G : forall r p b, u = p ++ r -> re_sub m_rat b 0 r = r).
  { induction r as [|c r IH]; intros p b E; [reflexivity|]. rewrite sub_step by (apply H; exists p; exact E). f_equal. apply (IH (p ++ [c])). rewrite <- app_assoc. exact E. }
  apply (G u []). reflexivity.
Qed.
(* pairs of neighbours *)
Fixpoint no_pair (f g : Z -> bool) (u : pystr) : Prop :=
  match u with c :: u' => f c && (match u' with d :: _ => g d | [] => false end) = false /\ no_pair f g u' | [] => True end.
Lemma pair_none ok f g u : no_pair f g u -> forall b, re_sub (m_pair ok f g) b 0 u = u.
Proof.
  induction u as [|c u IH]; intros H b; [reflexivity|]. destruct H as [H1 H2]. rewrite sub_step; [f_equal; apply IH, H2|]. unfold m_pair. destruct u as [|d u]; [reflexivity|]. destruct (ok b); [|reflexivity]. cbn [andb]. rewrite H1. reflexivity.
Qed.
Lemma no_pair_dec f g i c r : 0 <= i -> (forall d, is_digit d = true -> f d = false \/ (forall d, is_digit d = true -> g d = false) /\ g c = false) -> no_pair f g (c :: r) -> no_pair f g (dec i ++ c :: r).
Proof.
  intros Hi H N. assert (D := dec_numeric i Hi). revert D. generalize (dec i). intros u D. induction u as [|d u IH]; [exact N|]. inversion D as [|? ? D1 D2]; subst. change ((d :: u) ++ c :: r) with (d :: (u ++ c :: r)). split; [|exact (IH D2)].
  destruct (H d D1) as [-> |[G1 G2]]; [reflexivity|]. destruct u as [|e u]; cbn [app]; [rewrite G2; apply andb_false_r|]. inversion D2; subst. rewrite G1 by assumption. apply andb_false_r.
Qed.
Lemma no_pair_cons f g c r : f c = false -> no_pair f g r -> no_pair f g (c :: r). Proof. intros H N. split; [rewrite H; reflexivity|exact N]. Qed.

(* ---- the places where a matcher stops ---- *)
Lemma bis_none bra kt b c i x r : 0 <= i -> is_digit x = false -> x <> kt -> is_digit kt = false -> m_bis bra kt b (c :: dec i ++ x :: r) = None.
Proof.
  intros Hi X N T. assert (D := dec_numeric i Hi). revert D. generalize (dec i). intros u D. unfold m_bis. destruct u as [|d1 [|d2 [|d3 u]]]; cbn [app].
  - destruct r as [|y [|z r]]; try reflexivity. rewrite X, !andb_false_r. reflexivity.
  - destruct r as [|y r]; [reflexivity|]. rewrite X, !andb_false_r. reflexivity.
  - rewrite (proj2 (Z.eqb_neq _ _) N), !andb_false_r. reflexivity.
  - inversion D as [|? ? _ D2]; subst. inversion D2 as [|? ? _ D3]; subst. inversion D3 as [|? ? D4 _]; subst. destruct (d3 =? kt) eqn:E; [apply Z.eqb_eq in E; congruence|]. rewrite !andb_false_r. reflexivity.
Qed.
Lemma bis_other bra kt b c s : c <> bra -> m_bis bra kt b (c :: s) = None.
Proof. intros N. unfold m_bis. destruct s as [|i [|j [|e s]]]; try reflexivity. rewrite (proj2 (Z.eqb_neq _ _) N). reflexivity. Qed.
Lemma bar_split i x r : 0 <= i -> is_digit x = false -> digits (dec i ++ x :: r) = dec i /\ skipn (length (dec i)) (dec i ++ x :: r) = x :: r.
Proof. intros Hi X. split; [apply digits_app; [apply dec_numeric, Hi|exact X]|apply skipn_app']. Qed.
Ltac split_at i x r Hi X :=
  let A := fresh in let B := fresh in let d := fresh in let ds := fresh in let E := fresh in
  destruct (bar_split i x r Hi X) as [A B]; destruct (dec_cons i Hi) as (d & ds & E); rewrite E in *; rewrite A; rewrite B; clear A B.
Lemma two_none bra kt b c i x r : 0 <= i -> is_digit x = false -> m_two bra kt b (c :: dec i ++ 124 :: x :: r) = None.
Proof.
  intros Hi X. unfold m_two. destruct (c =? bra); [|reflexivity]. cbv zeta. split_at i 124 (x :: r) Hi (eq_refl (is_digit 124)). change (124 =? 124) with true. cbv iota. cbn [digits]. rewrite X. reflexivity.
Qed.
Lemma two_none' bra kt b c x r : is_digit x = false -> m_two bra kt b (c :: x :: r) = None.
Proof. intros X. unfold m_two. destruct (c =? bra); [|reflexivity]. cbn [digits]. rewrite X. reflexivity. Qed.
Lemma bis_none' bra kt b c x r : is_digit x = false -> m_bis bra kt b (c :: x :: r) = None.
Proof. intros X. unfold m_bis. destruct r as [|y [|z r]]; try reflexivity. rewrite X, andb_false_r. reflexivity. Qed.
Lemma bra_hit f kets bra b c i x r : f c = true -> out_of_call b = true -> 0 <= i -> is_digit x = false -> x <> 40 -> x <> 39 ->
  m_bra f kets bra b ((c :: dec i ++ [124]) ++ x :: r) = Some (length (c :: dec i ++ [124]), call (bra :: dec i ++ [124])).
Proof.
  intros F O Hi X N1 N2. cbn [app]. rewrite <- app_assoc. cbn [app]. unfold m_bra. rewrite F, O. cbn [andb]. cbv zeta. split_at i 124 (x :: r) Hi (eq_refl (is_digit 124)).
  unfold not_ahead, before_sum, no_end_call, not_ahead, chs. change (map is_c (lit "')")) with [is_c 39; is_c 41]. cbn [looks]. rewrite X. unfold is_c. rewrite (proj2 (Z.eqb_neq x 40) N1), (proj2 (Z.eqb_neq x 39) N2). cbn [andb negb]. change (124 =? 124) with true. cbn [andb].
  cbn [length]. rewrite app_length. cbn [length]. f_equal. f_equal. lia.
Qed.
Lemma bra_none f kets bra b c x r : is_digit x = false -> m_bra f kets bra b (c :: x :: r) = None.
Proof. intros X. unfold m_bra. destruct (f c && out_of_call b); [|reflexivity]. cbn [digits]. rewrite X. reflexivity. Qed.
Lemma bra_other f kets bra b c r : f c = false -> m_bra f kets bra b (c :: r) = None.
Proof. intros X. unfold m_bra. rewrite X. reflexivity. Qed.
Lemma bra_held f kets bra b c r : m_bra f kets bra (39 :: 40 :: b) (c :: r) = None.
Proof. unfold m_bra. change (out_of_call (39 :: 40 :: b)) with false. rewrite andb_false_r. reflexivity. Qed.
Lemma ket_hit f bras kt b j x r : out_of_call b = true -> not_behind [bras; is_digit] b = true -> after_sum b = true -> f x = true -> is_digit x = false -> 0 <= j -> no_end_call r = true ->
  m_ket f bras kt b ((124 :: dec j ++ [x]) ++ r) = Some (length (124 :: dec j ++ [x]), call (124 :: dec j ++ [kt])).
Proof.
  intros O B A F X Hj E. cbn [app]. rewrite <- app_assoc. cbn [app]. unfold m_ket. rewrite O, B, A. change (124 =? 124) with true. cbn [andb]. cbv zeta. split_at j x r Hj X.
  rewrite F, E. cbn [andb]. cbn [length]. rewrite app_length. cbn [length]. f_equal. f_equal. lia.
Qed.
Lemma ket_other f bras kt b c r : c <> 124 -> m_ket f bras kt b (c :: r) = None.
Proof. intros X. unfold m_ket. rewrite (proj2 (Z.eqb_neq _ _) X). reflexivity. Qed.
Lemma ket_none f bras kt b x r : is_digit x = false -> m_ket f bras kt b (124 :: x :: r) = None.
Proof. intros X. unfold m_ket. destruct (_ && _); [|reflexivity]. cbn [digits]. rewrite X. reflexivity. Qed.
Lemma ket_none' f bras kt b j x r : 0 <= j -> is_digit x = false -> f x = false -> m_ket f bras kt b (124 :: dec j ++ x :: r) = None.
Proof. intros Hj X F. unfold m_ket. destruct (_ && _); [|reflexivity]. cbv zeta. split_at j x r Hj X. rewrite F. reflexivity. Qed.
Lemma ket_held f bras kt b c r : m_ket f bras kt (39 :: 40 :: b) (c :: r) = None.
Proof. unfold m_ket. change (out_of_call (39 :: 40 :: b)) with false. rewrite andb_false_r. reflexivity. Qed.
(* regular expressions that start with a character and a number *)
Lemma NB_none b c i x r : 0 <= i -> ~ mid x -> m_NB b (c :: dec i ++ 124 :: x :: r) = None.
Proof.
  intros Hi X. apply re_none. intros _ p g q E P _. apply NB_inv in P. destruct P as (c' & n1 & md & n2 & k & -> & _ & N1 & M & _). cbn [app] in E. injection E as _ E. rewrite <- app_assoc in E. cbn [app] in E.
  apply (split_first dig) in E; [|discriminate|discriminate|apply dec_numeric, Hi|apply digs_numeric in N1; apply N1]. destruct E as (_ & _ & E). destruct md as [|y md]; cbn [app] in E; injection E as E _; apply X; rewrite E; [exact M124|inversion M; assumption].
Qed.
Lemma NB_none' b c x r : is_digit x = false -> m_NB b (c :: x :: r) = None.
Proof.
  intros X. apply re_none. intros _ p g q E P _. apply NB_inv in P. destruct P as (c' & n1 & md & n2 & k & -> & _ & N1 & M & _). cbn [app] in E. injection E as _ E. destruct N1 as [N F]. destruct n1 as [|y n1]; [congruence|]. cbn [app] in E. injection E as <- _. inversion F; subst. apply is_digit_iff in H1. congruence.
Qed.
Lemma re_next ok f e next out b c x r : nullable e = false -> firsts e x = false -> m_re ok (RSeq (RChr f) e) next out b (c :: x :: r) = None.
Proof.
  intros N F. apply re_none. intros _ p g q E P _. apply par_RSeq in P. destruct P as (t & u & ? & ? & -> & _ & P1 & P2). apply par_RChr in P1. destruct P1 as (c' & -> & _). cbn [app] in E. injection E as _ E.
  destruct u as [|y u]; [apply par_nullable in P2; [congruence|reflexivity]|]. cbn [app] in E. injection E as <- _. rewrite (par_first _ _ _ P2 x u eq_refl) in F. discriminate F.
Qed.
Lemma re_number ok f e next out b c u x r : numeric u -> is_digit x = false -> x <> 124 -> m_re ok (RSeq (RChr f) (RSeq rnum (RSeq (rc 124) e))) next out b (c :: u ++ x :: r) = None.
Proof.
  intros D X N. apply re_none. intros _ p g q E P _. apply par_RSeq in P. destruct P as (t & v & ? & ? & -> & _ & P1 & P2). apply par_RChr in P1. destruct P1 as (c' & -> & _). cbn [app] in E. injection E as _ E.
  apply par_RSeq in P2. destruct P2 as (n1 & v2 & ? & ? & -> & _ & P1 & P2). apply par_rnum in P1. destruct P1 as (N1 & _). apply par_RSeq in P2. destruct P2 as (t & v3 & ? & ? & -> & _ & P1 & _). apply par_rc in P1. destruct P1 as (-> & _).
  rewrite <- !app_assoc in E. cbn [app] in E. apply (split_first dig) in E; [|unfold dig; congruence|discriminate|exact D|apply digs_numeric in N1; apply N1]. destruct E as (_ & E & _). congruence.
Qed.
Lemma re_call ok e next out b s : (forall b, ok b = true -> out_of_call b = true) -> m_re ok e next out (39 :: 40 :: b) s = None.
Proof. intros H. unfold m_re. destruct (ok (39 :: 40 :: b)) eqn:E; [|reflexivity]. apply H in E. discriminate E. Qed.
Lemma begin_call b s : m_begin (39 :: 40 :: b) s = None.
Proof. apply re_call. intros b' H. rewrite !andb_true_iff in H. tauto. Qed.
Lemma double_call b s : m_double (39 :: 40 :: b) s = None.
Proof. apply re_call. intros b' H. unfold ok_double in H. rewrite !andb_true_iff in H. tauto. Qed.
Lemma dot_call b s : m_double_dot (39 :: 40 :: b) s = None.
Proof. apply re_call. intros b' H. unfold ok_double in H. rewrite !andb_true_iff in H. tauto. Qed.
Lemma open_end_call b s : m_open_end (39 :: 40 :: b) s = None.
Proof. apply re_call. auto. Qed.

(* ---- replacements ---- *)
Section Steps.
Variables (b r r' : pystr).
Lemma spin_step f g h out c i x y : f c = true -> g x = true -> h y = true -> is_digit x = false -> 0 <= i ->
  re_sub (m_spin f g h out) (y :: x :: rev (dec i) ++ c :: b) 0 r = r' -> re_sub (m_spin f g h out) b 0 (c :: dec i ++ x :: y :: r) = out i ++ r'.
Proof.
  intros F G H X Hi E. replace (c :: dec i ++ x :: y :: r) with ((c :: dec i ++ [x; y]) ++ r) by (cbn [app]; rewrite <- app_assoc; reflexivity). apply hit_eq; [discriminate| |].
  - cbn [app]. rewrite <- app_assoc. cbn [app]. unfold m_spin. rewrite F. cbv zeta. pose proof (number_dec i Hi) as Hn. split_at i x (y :: r) Hi X. rewrite G, H. cbn [andb]. rewrite Hn. cbn [length app]. rewrite app_length. cbn [length]. f_equal. f_equal. lia.
  - rewrite <- E. f_equal. cbn [rev]. rewrite rev_app_distr. cbn [rev app]. rewrite <- app_assoc. reflexivity.
Qed.
Lemma bra_step f kets bra c i x : f c = true -> out_of_call b = true -> 0 <= i -> is_digit x = false -> x <> 40 -> x <> 39 ->
  re_sub (m_bra f kets bra) (124 :: rev (dec i) ++ c :: b) 0 (x :: r) = r' -> re_sub (m_bra f kets bra) b 0 (c :: dec i ++ 124 :: x :: r) = 111 :: 80 :: 115 :: 40 :: 39 :: bra :: dec i ++ 124 :: 39 :: 41 :: r'.
Proof.
  intros F O Hi X N1 N2 E. replace (c :: dec i ++ 124 :: x :: r) with ((c :: dec i ++ [124]) ++ x :: r) by (cbn [app]; rewrite <- app_assoc; reflexivity).
  rewrite (hit_eq _ _ _ _ r' (call (bra :: dec i ++ [124]))); [| discriminate | apply bra_hit; assumption |].
  - unfold call. change (lit "oPs('") with [111; 80; 115; 40; 39]. change (lit "')") with [39; 41]. cbn [app]. rewrite <- !app_assoc. cbn [app]. reflexivity.
  - rewrite <- E. f_equal. cbn [rev]. rewrite rev_app_distr. cbn [rev app]. rewrite <- app_assoc. reflexivity.
Qed.
Lemma ket_step f bras kt j x : out_of_call b = true -> not_behind [bras; is_digit] b = true -> after_sum b = true -> f x = true -> is_digit x = false -> 0 <= j -> no_end_call r = true ->
  re_sub (m_ket f bras kt) (x :: rev (dec j) ++ 124 :: b) 0 r = r' -> re_sub (m_ket f bras kt) b 0 (124 :: dec j ++ x :: r) = 111 :: 80 :: 115 :: 40 :: 39 :: 124 :: dec j ++ kt :: 39 :: 41 :: r'.
Proof.
  intros O B A F X Hj N E. replace (124 :: dec j ++ x :: r) with ((124 :: dec j ++ [x]) ++ r) by (cbn [app]; rewrite <- app_assoc; reflexivity).
  rewrite (hit_eq _ _ _ _ r' (call (124 :: dec j ++ [kt]))); [| discriminate | apply ket_hit; assumption |].
  - unfold call. change (lit "oPs('") with [111; 80; 115; 40; 39]. change (lit "')") with [39; 41]. cbn [app]. rewrite <- !app_assoc. cbn [app]. reflexivity.
  - rewrite <- E. f_equal. cbn [rev]. rewrite rev_app_distr. cbn [rev app]. rewrite <- app_assoc. reflexivity.
Qed.
Lemma block_step : not_behind (chs (lit "numpy.")) b = true -> re_sub m_block (107 :: 99 :: 111 :: 108 :: 98 :: b) 0 r = r' ->
  re_sub m_block b 0 (98 :: 108 :: 111 :: 99 :: 107 :: r) = 110 :: 117 :: 109 :: 112 :: 121 :: 46 :: 98 :: 108 :: 111 :: 99 :: 107 :: r'.
Proof. intros B E. change (98 :: 108 :: 111 :: 99 :: 107 :: r) with ([98; 108; 111; 99; 107] ++ r). rewrite (hit_eq m_block b [98; 108; 111; 99; 107] r r' (lit "numpy.block")); [reflexivity|discriminate| |exact E]. unfold m_block. rewrite B. reflexivity. Qed.
Lemma ats_step : re_sub (m_lit (lit "@|@") (lit "@")) (64 :: 124 :: 64 :: b) 0 r = r' -> re_sub (m_lit (lit "@|@") (lit "@")) b 0 (64 :: 124 :: 64 :: r) = 64 :: r'.
Proof. intros E. change (64 :: 124 :: 64 :: r) with ([64; 124; 64] ++ r). rewrite (hit_eq (m_lit (lit "@|@") (lit "@")) b [64; 124; 64] r r' (lit "@")); [reflexivity|discriminate|reflexivity|exact E]. Qed.
End Steps.
Lemma ats_none b j r : 0 <= j -> m_lit (lit "@|@") (lit "@") b (64 :: 124 :: dec j ++ r) = None.
Proof.
  intros Hj. destruct (dec_cons j Hj) as (d & ds & E). assert (D := dec_numeric j Hj). rewrite E in *. inversion D as [|? ? D1 _]; subst. unfold m_lit. change (lit "@|@") with [64; 124; 64]. cbn [app starts]. change (64 =? 64) with true. change (124 =? 124) with true. cbn [andb].
  replace (64 =? d) with false; [reflexivity|]. symmetry. apply Z.eqb_neq. intros <-. discriminate D1.
Qed.
Lemma spin_none f g h out b c i x y r : 0 <= i -> is_digit x = false -> g x && h y = false -> m_spin f g h out b (c :: dec i ++ x :: y :: r) = None.
Proof. intros Hi X G. unfold m_spin. destruct (f c); [|reflexivity]. cbv zeta. split_at i x (y :: r) Hi X. rewrite G. reflexivity. Qed.
Lemma spin_end f g h out b c i x : 0 <= i -> is_digit x = false -> m_spin f g h out b (c :: dec i ++ [x]) = None.
Proof. intros Hi X. unfold m_spin. destruct (f c); [|reflexivity]. cbv zeta. split_at i x (@nil Z) Hi X. reflexivity. Qed.
Lemma spin_mark f g h out b c i x r : 0 <= i -> is_digit x = false -> g x = false -> m_spin f g h out b (c :: dec i ++ x :: r) = None.
Proof. intros Hi X G. unfold m_spin. destruct (f c); [|reflexivity]. cbv zeta. split_at i x r Hi X. rewrite G. destruct r; reflexivity. Qed.
Lemma spin_none' f g h out b c x r : is_digit x = false -> m_spin f g h out b (c :: x :: r) = None.
Proof. intros X. unfold m_spin. destruct (f c); [|reflexivity]. cbn [digits]. rewrite X. reflexivity. Qed.
Lemma spin_other f g h out b c r : f c = false -> m_spin f g h out b (c :: r) = None.
Proof. intros X. unfold m_spin. rewrite X. reflexivity. Qed.
Lemma digit_ten d : is_digit d = true -> In d [48; 49; 50; 51; 52; 53; 54; 55; 56; 57].
Proof. intros H. apply is_digit_iff in H. cbn. lia. Qed.
Global Opaque dec.

Lemma out_Au_eq i r : out_Au i ++ r = 40 :: 1013 :: 64 :: 98 :: 108 :: 111 :: 99 :: 107 :: 40 :: 91 :: 91 :: 10216 :: dec i ++ 124 :: 93 :: 44 :: 32 :: 91 :: 10216 :: dec (i + 1) ++ 124 :: 93 :: 93 :: 41 :: 41 :: 91 :: 48 :: 58 :: 49 :: 44 :: 32 :: 58 :: 93 :: 64 :: 124 :: r.
Proof. unfold out_Au. repeat (cbn [app]; try rewrite <- app_assoc). reflexivity. Qed.
Lemma out_Ad_eq i r : out_Ad i ++ r = 124 :: 64 :: 40 :: 98 :: 108 :: 111 :: 99 :: 107 :: 40 :: 91 :: 124 :: dec i ++ 10217 :: 44 :: 32 :: 124 :: dec (i + 1) ++ 10217 :: 93 :: 41 :: 64 :: 45 :: 1013 :: 41 :: 91 :: 58 :: 44 :: 32 :: 48 :: 58 :: 49 :: 93 :: r.
Proof. unfold out_Ad. repeat (cbn [app]; try rewrite <- app_assoc). reflexivity. Qed.
Lemma out_Bd_eq i r : out_Bd i ++ r = 40 :: 45 :: 1013 :: 64 :: 98 :: 108 :: 111 :: 99 :: 107 :: 40 :: 91 :: 91 :: 91 :: dec i ++ 124 :: 93 :: 44 :: 32 :: 91 :: 91 :: dec (i + 1) ++ 124 :: 93 :: 93 :: 41 :: 41 :: 91 :: 48 :: 58 :: 49 :: 44 :: 32 :: 58 :: 93 :: 64 :: 124 :: r.
Proof. unfold out_Bd. repeat (cbn [app]; try rewrite <- app_assoc). reflexivity. Qed.
Lemma out_Bu_eq i r : out_Bu i ++ r = 124 :: 64 :: 40 :: 98 :: 108 :: 111 :: 99 :: 107 :: 40 :: 91 :: 124 :: dec i ++ 93 :: 44 :: 32 :: 124 :: dec (i + 1) ++ 93 :: 93 :: 41 :: 64 :: 1013 :: 41 :: 91 :: 58 :: 44 :: 32 :: 48 :: 58 :: 49 :: 93 :: r.
Proof. unfold out_Bu. repeat (cbn [app]; try rewrite <- app_assoc). reflexivity. Qed.
Lemma spin_Au f g h b r r' c i x y : f c = true -> g x = true -> h y = true -> is_digit x = false -> 0 <= i ->
  re_sub (m_spin f g h out_Au) (y :: x :: rev (dec i) ++ c :: b) 0 r = r' -> re_sub (m_spin f g h out_Au) b 0 (c :: dec i ++ x :: y :: r) = 40 :: 1013 :: 64 :: 98 :: 108 :: 111 :: 99 :: 107 :: 40 :: 91 :: 91 :: 10216 :: dec i ++ 124 :: 93 :: 44 :: 32 :: 91 :: 10216 :: dec (i + 1) ++ 124 :: 93 :: 93 :: 41 :: 41 :: 91 :: 48 :: 58 :: 49 :: 44 :: 32 :: 58 :: 93 :: 64 :: 124 :: r'.
Proof. intros. rewrite <- out_Au_eq. apply spin_step; assumption. Qed.
Lemma spin_Ad f g h b r r' c i x y : f c = true -> g x = true -> h y = true -> is_digit x = false -> 0 <= i ->
  re_sub (m_spin f g h out_Ad) (y :: x :: rev (dec i) ++ c :: b) 0 r = r' -> re_sub (m_spin f g h out_Ad) b 0 (c :: dec i ++ x :: y :: r) = 124 :: 64 :: 40 :: 98 :: 108 :: 111 :: 99 :: 107 :: 40 :: 91 :: 124 :: dec i ++ 10217 :: 44 :: 32 :: 124 :: dec (i + 1) ++ 10217 :: 93 :: 41 :: 64 :: 45 :: 1013 :: 41 :: 91 :: 58 :: 44 :: 32 :: 48 :: 58 :: 49 :: 93 :: r'.
Proof. intros. rewrite <- out_Ad_eq. apply spin_step; assumption. Qed.
Lemma spin_Bd f g h b r r' c i x y : f c = true -> g x = true -> h y = true -> is_digit x = false -> 0 <= i ->
  re_sub (m_spin f g h out_Bd) (y :: x :: rev (dec i) ++ c :: b) 0 r = r' -> re_sub (m_spin f g h out_Bd) b 0 (c :: dec i ++ x :: y :: r) = 40 :: 45 :: 1013 :: 64 :: 98 :: 108 :: 111 :: 99 :: 107 :: 40 :: 91 :: 91 :: 91 :: dec i ++ 124 :: 93 :: 44 :: 32 :: 91 :: 91 :: dec (i + 1) ++ 124 :: 93 :: 93 :: 41 :: 41 :: 91 :: 48 :: 58 :: 49 :: 44 :: 32 :: 58 :: 93 :: 64 :: 124 :: r'.
Proof. intros. rewrite <- out_Bd_eq. apply spin_step; assumption. Qed.
Lemma spin_Bu f g h b r r' c i x y : f c = true -> g x = true -> h y = true -> is_digit x = false -> 0 <= i ->
  re_sub (m_spin f g h out_Bu) (y :: x :: rev (dec i) ++ c :: b) 0 r = r' -> re_sub (m_spin f g h out_Bu) b 0 (c :: dec i ++ x :: y :: r) = 124 :: 64 :: 40 :: 98 :: 108 :: 111 :: 99 :: 107 :: 40 :: 91 :: 124 :: dec i ++ 93 :: 44 :: 32 :: 124 :: dec (i + 1) ++ 93 :: 93 :: 41 :: 64 :: 1013 :: 41 :: 91 :: 58 :: 44 :: 32 :: 48 :: 58 :: 49 :: 93 :: r'.
Proof. intros. rewrite <- out_Bu_eq. apply spin_step; assumption. Qed.
Ltac side := first [assumption | reflexivity | lia | discriminate | (unfold mid; cbn; lia)].
Ltac re1 := first [apply re_other; reflexivity | apply re_next; reflexivity].
Ltac none1 :=
  lazymatch goal with
  | |- m_NB _ _ = None => first [re1 | apply NB_none; side | (apply (fun ok f e next out b c x r => re_number ok f e next out b c [48] x r); [repeat constructor|reflexivity|discriminate])]
  | |- m_begin _ _ = None => first [apply begin_call | re1]
  | |- m_double _ _ = None => first [apply double_call | re1]
  | |- m_double_dot _ _ = None => first [apply dot_call | re1]
  | |- m_open_end _ _ = None => first [apply open_end_call | re1 | (apply (fun ok f e next out b c x r => re_number ok f e next out b c [48] x r); [repeat constructor|reflexivity|discriminate])]
  | |- m_bis _ _ _ _ = None => first [apply bis_other; discriminate | apply bis_none'; reflexivity | apply bis_none; side | reflexivity]
  | |- m_two _ _ _ _ = None => first [reflexivity | apply two_none'; reflexivity | apply two_none; side]
  | |- m_spin _ _ _ _ _ _ = None => first [apply spin_other; reflexivity | apply spin_none'; reflexivity | apply spin_mark; side | apply spin_none; side | reflexivity]
  | |- m_bra _ _ _ _ _ = None => first [apply bra_other; reflexivity | apply bra_held | apply bra_none; reflexivity | reflexivity]
  | |- m_ket _ _ _ _ _ = None => first [apply ket_other; discriminate | apply ket_held | apply ket_none; reflexivity | apply ket_none'; side]
  | |- m_lit _ _ _ _ = None => first [reflexivity | apply ats_none; side]
  | |- _ => reflexivity
  end.
Ltac digit1 := let d := fresh in let H := fresh in intros ? d ? H; apply digit_ten in H; repeat (destruct H as [<-|H]; [none1|]); destruct H.
Ltac hit1 :=
  lazymatch goal with
  | |- re_sub (m_spin _ _ _ _) _ _ _ = _ => first [apply spin_Au | apply spin_Ad | apply spin_Bd | apply spin_Bu]; [reflexivity|reflexivity|reflexivity|reflexivity|side|]
  | |- re_sub (m_bra _ _ _) _ _ _ = _ => apply bra_step; [reflexivity|reflexivity|side|reflexivity|discriminate|discriminate|]
  | |- re_sub (m_ket _ _ _) _ _ (124 :: _) = _ => apply ket_step; [reflexivity|reflexivity|reflexivity|reflexivity|reflexivity|side|reflexivity|]
  | |- re_sub m_block _ _ (98 :: _) = _ => apply block_step; [reflexivity|]
  | |- re_sub (m_lit _ _) _ _ (64 :: _) = _ => apply ats_step
  end.
Ltac walk :=
  idtac; lazymatch goal with
  | |- re_sub _ _ 0 [] = _ => apply nil_eq
  | |- re_sub _ _ 0 (dec _ ++ _) = _ => apply dec_eq; [side|digit1|walk]
  | |- re_sub _ _ 0 (_ :: _) = _ => first [hit1 | apply step_eq; [solve [none1]|]]; walk
  end.
Ltac texts := repeat first [apply only_nil | apply only_app; [apply only_dec; lia|] | apply only_dec; lia | apply only_cons; [reflexivity|]].
(* the characters before there are spin indices, and with them *)
Definition few : list Z := [40; 1013; 64; 98; 108; 111; 99; 107; 91; 93; 10216; 10217; 124; 44; 32; 41; 58; 45; 43].
Definition given : list Z := [91; 93; 10216; 10217; 60; 62; 124; 40; 41; 45; 43; 95; 100; 94; 117].
Lemma skip_end L u : only L u -> forallb (fun c => negb (cls [125] c)) L = true -> re_sub m_end [] 0 u = u.
Proof. intros O H. apply (pass_none _ [125] L); [|reflexivity|exact H|exact O]. intros b c s N. apply cls_no in N. unfold m_end. destruct s; [|reflexivity]. rewrite (proj2 (Z.eqb_neq _ _) N). reflexivity. Qed.
Lemma clean_given u : only given u -> parse_clean u = norm u.
Proof.
  intros O. rewrite clean_norm; [apply (skip_end (given ++ [10216; 10217])); [|reflexivity]| |].
  - intros c I. unfold norm in I. apply filter_In in I. destruct I as [I _]. apply in_map_iff in I. destruct I as (x & <- & I). destruct (O x I) as [D|D]; [left; rewrite conv_id; [exact D|]; apply is_digit_iff in D; unfold odd; lia|].
    right. cbn in D. rewrite !orb_true_iff, !Z.eqb_eq in D. repeat (destruct D as [-> |D]; [reflexivity|]). discriminate D.
  - intros I. destruct (O 92 I) as [D|D]; discriminate D.
  - intros I. destruct (O 123 I) as [D|D]; discriminate D.
Qed.
Lemma skip_braces u : only given u -> re_sub m_braces [] 0 u = u.
Proof. intros O. apply (pass_none _ [123] given); [|reflexivity|reflexivity|exact O]. intros b c s N. apply braces_other, cls_no, N. Qed.
Lemma skip_s u : only few u -> re_sub m_s [] 0 u = u.
Proof. intros O. apply (pass_none _ [115; 83] few); [|reflexivity|reflexivity|exact O]. intros b c s N. apply cls_no2 in N. apply s_other; apply N. Qed.
Lemma skip_mass u : only few u -> re_sub m_mass [] 0 u = u.
Proof. intros O. apply (pass_none _ [109; 77] few); [|reflexivity|reflexivity|exact O]. intros b c s N. apply cls_no2 in N. apply mass_other; apply N. Qed.
Lemma skip_oPs u : only few u -> re_sub m_oPs [] 0 u = u.
Proof. intros O. apply oPs_none. intros I. destruct (O _ I) as [D|D]; discriminate D. Qed.
Lemma skip_mvar u : only few u -> re_sub m_mvar [] 0 u = u.
Proof. intros O. apply (pass_none _ [109; 77; 956] few); [|reflexivity|reflexivity|exact O]. intros b c s N. cbn in N. rewrite orb_false_r, !orb_false_iff, !Z.eqb_neq in N. apply mvar_other; apply N. Qed.
Lemma skip_pre k pre u : cls few k = false -> is_digit k = false -> only few u -> re_sub (m_pre (k :: pre)) [] 0 u = u.
Proof.
  intros A B O. apply (sub_avoid _ [k]); [intros b c s N; apply pre_other, cls_no, N|]. intros c I. cbn. rewrite orb_false_r. apply Z.eqb_neq. intros ->. destruct (O _ I); congruence.
Qed.
Lemma skip_tr5 u : only few u -> re_sub m_tr5 [] 0 u = u.
Proof. intros O. apply (pass_none _ [116] few); [|reflexivity|reflexivity|exact O]. intros b c s N. apply tr5_other, cls_no, N. Qed.
Lemma skip_tr u : only few u -> re_sub m_tr [] 0 u = u.
Proof. intros O. apply (pass_none _ [116] few); [|reflexivity|reflexivity|exact O]. intros b c s N. apply tr_other, cls_no, N. Qed.
Lemma skip_Dadj u : only few u -> re_sub m_Dadj [] 0 u = u.
Proof. intros O. apply (pass_none _ [916] few); [|reflexivity|reflexivity|exact O]. intros b c s N. apply Dadj_other, cls_no, N. Qed.
Lemma skip_Dnon u : only few u -> re_sub m_Dnon [] 0 u = u.
Proof. intros O. apply (pass_none _ [916] few); [|reflexivity|reflexivity|exact O]. intros b c s N. apply Dnon_other, cls_no, N. Qed.
(* the characters with calls *)
Definition called : list Z := 115 :: 80 :: 39 :: 110 :: 117 :: 109 :: 112 :: 121 :: 46 :: 116 :: 114 :: 97 :: 101 :: few.
Lemma skip_sqrt u : only called u -> re_sub (m_lit (lit "sqrt") (lit "oPs.field.sqrt")) [] 0 u = u.
Proof. intros O. apply (sub_lit _ _ 113); [cbn; tauto|]. intros I. destruct (O _ I) as [D|D]; discriminate D. Qed.
Lemma skip_rat u : only called u -> re_sub m_rat [] 0 u = u.
Proof. intros O. apply rat_none. intros I. destruct (O _ I) as [D|D]; discriminate D. Qed.
Lemma digit_not k d : is_digit k = false -> is_digit d = true -> is_c k d = false.
Proof. intros N D. unfold is_c. apply Z.eqb_neq. intros ->. congruence. Qed.
Lemma apart_left k g i c r : is_digit k = false -> 0 <= i -> no_pair (is_c k) g (c :: r) -> no_pair (is_c k) g (dec i ++ c :: r).
Proof. intros N Hi. apply no_pair_dec; [exact Hi|]. intros d D. left. apply digit_not; assumption. Qed.
Lemma apart_right k f i c r : is_digit k = false -> is_c k c = false -> 0 <= i -> no_pair f (is_c k) (c :: r) -> no_pair f (is_c k) (dec i ++ c :: r).
Proof. intros N E Hi. apply no_pair_dec; [exact Hi|]. intros d D. right. split; [|exact E]. intros d' D'. apply digit_not; assumption. Qed.
Ltac apart :=
  first
    [ exact I
    | apply no_pair_cons; [reflexivity|]
    | apply apart_left; [reflexivity|lia|]
    | apply apart_right; [reflexivity|reflexivity|lia|]
    | (split; [reflexivity|]) ].
Lemma norm_cons c u : norm (c :: u) = if (conv c =? 10) || (conv c =? 32) then norm u else conv c :: norm u.
Proof. unfold norm. cbn [map filter]. destruct ((conv c =? 10) || (conv c =? 32)); reflexivity. Qed.
Lemma norm_dec i u : 0 <= i -> norm (dec i ++ u) = dec i ++ norm u.
Proof.
  intros Hi. assert (D := dec_numeric i Hi). revert D. generalize (dec i). intros v D. induction D as [|d v H D IH]; [reflexivity|]. cbn [app]. rewrite norm_cons, IH. rewrite conv_id by (apply is_digit_iff in H; unfold odd; lia). apply digit_ten in H. repeat (destruct H as [<-|H]; [reflexivity|]). destruct H.
Qed.
Lemma norm_nil : norm [] = []. Proof. reflexivity. Qed.
Ltac normal := repeat first [rewrite norm_nil | rewrite norm_dec by lia | rewrite norm_cons; match goal with |- context [conv ?c] => let v := eval vm_compute in (conv c) in change (conv c) with v end; cbv beta iota delta [Z.eqb Pos.eqb orb]].
(* up to the massive spinors, and from there *)
Definition front (s : pystr) : pystr := parse_spins (re_sub m_braces [] 0 (re_sub m_pow [] 0 (parse_clean s))).
Definition back (s : pystr) : pystr :=
  let s := re_sub (m_bis 10216 10217) [] 0 s in
  let s := re_sub (m_two 10216 10217) [] 0 s in
  let s := re_sub (m_bis 91 93) [] 0 s in
  let s := re_sub (m_two 91 93) [] 0 s in
  let s := re_sub m_s [] 0 s in
  let s := re_sub m_mass [] 0 s in
  let s := re_sub m_oPs [] 0 s in
  let s := re_sub m_mvar [] 0 s in
  let s := re_sub (m_pre [937; 95]) [] 0 s in
  let s := re_sub (m_pre [928; 95]) [] 0 s in
  let s := re_sub m_tr5 [] 0 s in
  let s := re_sub m_tr [] 0 s in
  let s := re_sub m_Dadj [] 0 s in
  let s := re_sub m_Dnon [] 0 s in
  let s := re_sub m_NB [] 0 s in
  let s := parse_open s in
  let s := re_sub (m_lit (lit "sqrt") (lit "oPs.field.sqrt")) [] 0 s in
  let s := re_sub (m_pair anything is_digit (is_c 115)) [] 0 s in
  let s := re_sub (m_pair anything is_digit (is_c 111)) [] 0 s in
  let s := re_sub (m_pair not_tr is_digit (is_c 40)) [] 0 s in
  let s := re_sub (m_pair anything (is_c 41) is_digit) [] 0 s in
  let s := re_sub (m_pair anything (is_c 41) (is_c 40)) [] 0 s in
  let s := re_sub (m_pair anything (is_c 41) (is_c 111)) [] 0 s in
  let s := re_sub m_rat [] 0 s in
  re_sub m_block [] 0 s.
Lemma py_parse_split s : py_parse s = back (front s). Proof. reflexivity. Qed.
Lemma back_by s0 s1 s2 s3 s4 s5 s6 s7 s8 s9 s10 s11 s12 s13 s14 s15 s16 s17 s18 s19 s20 s21 s22 s23 s24 s25 s26 s27 s28 s29 s30 s31 s32 :
  re_sub (m_bis 10216 10217) [] 0 s0 = s1 ->
  re_sub (m_two 10216 10217) [] 0 s1 = s2 ->
  re_sub (m_bis 91 93) [] 0 s2 = s3 ->
  re_sub (m_two 91 93) [] 0 s3 = s4 ->
  re_sub (m_s) [] 0 s4 = s5 ->
  re_sub (m_mass) [] 0 s5 = s6 ->
  re_sub (m_oPs) [] 0 s6 = s7 ->
  re_sub (m_mvar) [] 0 s7 = s8 ->
  re_sub (m_pre [937; 95]) [] 0 s8 = s9 ->
  re_sub (m_pre [928; 95]) [] 0 s9 = s10 ->
  re_sub (m_tr5) [] 0 s10 = s11 ->
  re_sub (m_tr) [] 0 s11 = s12 ->
  re_sub (m_Dadj) [] 0 s12 = s13 ->
  re_sub (m_Dnon) [] 0 s13 = s14 ->
  re_sub (m_NB) [] 0 s14 = s15 ->
  re_sub (m_bra (cls [10216; 60]) (cls [10217; 124; 62]) 10216) [] 0 s15 = s16 ->
  re_sub (m_ket (cls [10217; 62]) (cls [10216; 124; 60]) 10217) [] 0 s16 = s17 ->
  re_sub (m_bra (is_c 91) (is_c 93) 91) [] 0 s17 = s18 ->
  re_sub (m_ket (is_c 93) (is_c 91) 93) [] 0 s18 = s19 ->
  re_sub (m_begin) [] 0 s19 = s20 ->
  re_sub (m_open_end) [] 0 s20 = s21 ->
  re_sub (m_double) [] 0 s21 = s22 ->
  re_sub (m_double_dot) [] 0 s22 = s23 ->
  re_sub (m_lit (lit "sqrt") (lit "oPs.field.sqrt")) [] 0 s23 = s24 ->
  re_sub (m_pair anything is_digit (is_c 115)) [] 0 s24 = s25 ->
  re_sub (m_pair anything is_digit (is_c 111)) [] 0 s25 = s26 ->
  re_sub (m_pair not_tr is_digit (is_c 40)) [] 0 s26 = s27 ->
  re_sub (m_pair anything (is_c 41) is_digit) [] 0 s27 = s28 ->
  re_sub (m_pair anything (is_c 41) (is_c 40)) [] 0 s28 = s29 ->
  re_sub (m_pair anything (is_c 41) (is_c 111)) [] 0 s29 = s30 ->
  re_sub (m_rat) [] 0 s30 = s31 ->
  re_sub (m_block) [] 0 s31 = s32 ->
  back s0 = s32.
Proof. intros. subst. reflexivity. Qed.
Lemma front_by s s0 s1 s2 s3 s4 s5 s6 s7 :
  only given s -> norm s = s0 -> re_sub m_pow [] 0 s0 = s1 -> re_sub m_braces [] 0 s1 = s2 ->
  re_sub (m_spin (cls [10216; 60]) (cls [95; 100]) (is_c 124) out_Au) [] 0 s2 = s3 ->
  re_sub (m_spin (is_c 124) (cls [95; 100]) (cls [10217; 62]) out_Ad) [] 0 s3 = s4 ->
  re_sub (m_spin (is_c 91) (cls [94; 117]) (is_c 124) out_Bd) [] 0 s4 = s5 ->
  re_sub (m_spin (is_c 124) (cls [94; 117]) (is_c 93) out_Bu) [] 0 s5 = s6 ->
  re_sub (m_lit (lit "@|@") (lit "@")) [] 0 s6 = s7 ->
  front s = s7.
Proof. intros O N. intros. unfold front. rewrite (clean_given s O), N. subst. reflexivity. Qed.
Lemma front_norm s s' : only given s -> only given s' -> norm s = norm s' -> front s = front s'.
Proof. intros O O' E. unfold front. rewrite (clean_given s O), (clean_given s' O'), E. reflexivity. Qed.
Ltac skip1 := first [apply skip_s | apply skip_mass | apply skip_oPs | apply skip_mvar | apply skip_pre; [reflexivity|reflexivity|] | apply skip_tr5 | apply skip_tr | apply skip_Dadj | apply skip_Dnon | apply skip_sqrt | apply skip_rat | apply skip_braces]; texts.
Ltac pair1 := apply pair_none; repeat apart.
Ltac back_text := eapply back_by; [walk|walk|walk|walk|skip1|skip1|skip1|skip1|skip1|skip1|skip1|skip1|skip1|skip1|walk|walk|walk|walk|walk|walk|walk|walk|walk|skip1|pair1|pair1|pair1|pair1|pair1|pair1|skip1|walk].
Ltac front_text := eapply front_by; [texts|normal; reflexivity|walk|skip1|walk|walk|walk|walk|walk].
