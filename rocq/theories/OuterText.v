(* What _parse makes of sums of products of two-brackets and outer products of spinors. *)
From Coq Require Import Ascii String.
From Coq Require Import List ZArith Bool Lia.
From Verif Require Import Base Str MassesThm Regex RegexThm Parse ParseSpec ParseChars ParseWrap ParseOpen ParseVary ParseStars TensorText TensorSum TensorSumText.
Import ListNotations.
Open Scope Z_scope.

(* a two-bracket <i|j> or [i|j], or an outer product |i><j|, |i>[j|, |i]<j|, |i][j| *)
Inductive part := Two (sq : bool) (i j : Z) | Out (sk : bool) (i : Z) (sb : bool) (j : Z).
Definition part_ok (x : part) : Prop := match x with Two _ i j => 0 <= i /\ 0 <= j | Out _ i _ j => 0 <= i /\ 0 <= j end.
Definition o_star (b : bool) (r : pystr) : pystr := if b then 42 :: r else r.
Definition pt (T U Ab Ak Sb Sk st : bool) (x : part) (r : pystr) : pystr :=
  match x with
  | Two sq i j => if (if sq then U else T) then 111 :: 80 :: 115 :: 40 :: 39 :: bra_c sq :: dec i ++ 124 :: dec j ++ ket_c sq :: 39 :: 41 :: r
                  else bra_c sq :: dec i ++ 124 :: dec j ++ ket_c sq :: r
  | Out sk i sb j => o_ket (if sk then Sk else Ak) i (ket_c sk) (o_star st (o_bra (if sb then Sb else Ab) (bra_c sb) j r))
  end.
Fixpoint tail2 (tx : part -> pystr -> pystr) (l : list (Z * part)) : pystr := match l with [] => [] | (o, x) :: l' => o :: tx x (tail2 tx l') end.
Definition all2 (tx : part -> pystr -> pystr) (x : part) (l : list (Z * part)) : pystr := tx x (tail2 tx l).
Definition stage2 (m : pystr -> pystr -> option (nat * pystr)) (tx tx' : part -> pystr -> pystr) : Prop :=
  forall x, part_ok x -> forall b r r', free b -> free r -> (forall b, re_sub m b 0 r = r') -> re_sub m b 0 (tx x r) = tx' x r'.
Definition parts_ok (l : list (Z * part)) : Prop := Forall (fun y => is_o (fst y) /\ part_ok (snd y)) l.
Lemma free2 tx l : parts_ok l -> free (tail2 tx l). Proof. intros [|[o x] l' [H _] _]; cbn; [exact I|exact H]. Qed.
Lemma tail_stage2 m tx tx' : stage2 m tx tx' -> (forall b o s, is_o o -> m b (o :: s) = None) -> forall l, parts_ok l -> forall b, re_sub m b 0 (tail2 tx l) = tail2 tx' l.
Proof.
  intros S O l H. induction H as [|[o x] l [H1 H2] H IH]; intros b; [reflexivity|]. cbn [tail2]. cbn [fst snd] in *. apply step_eq; [apply O, H1|]. apply S; [exact H2|exact H1|apply free2, H|exact IH].
Qed.
Lemma all_stage2 m tx tx' x l : stage2 m tx tx' -> (forall b o s, is_o o -> m b (o :: s) = None) -> part_ok x -> parts_ok l -> re_sub m [] 0 (all2 tx x l) = all2 tx' x l.
Proof. intros S O H1 H. apply S; [exact H1|exact I|apply free2, H|]. apply tail_stage2; assumption. Qed.
(* ---- open ends ---- *)
Lemma re_open ok f e next out b c j r : 0 <= j -> nullable e = false -> match r with x :: _ => firsts e x = false | [] => True end ->
  m_re ok (RSeq (RChr f) (RSeq rnum (RSeq (rc 124) e))) next out b (c :: dec j ++ 124 :: r) = None.
Proof.
  intros Hj N F. apply re_none. intros _ p g q E P _. apply par_RSeq in P. destruct P as (t & v & ? & ? & -> & _ & P1 & P2). apply par_RChr in P1. destruct P1 as (c' & -> & _). cbn [app] in E. injection E as _ E.
  apply par_RSeq in P2. destruct P2 as (n1 & v2 & ? & ? & -> & _ & P1 & P2). apply par_rnum in P1. destruct P1 as (N1 & _). apply par_RSeq in P2. destruct P2 as (t & v3 & ? & ? & -> & _ & P1 & P2). apply par_rc in P1. destruct P1 as (-> & _).
  rewrite <- !app_assoc in E. cbn [app] in E. apply (split_first dig) in E; [|discriminate|discriminate|apply dec_numeric, Hj|apply digs_numeric in N1; apply N1]. destruct E as (_ & _ & E).
  destruct v3 as [|y v3]; [apply par_nullable in P2; [congruence|reflexivity]|]. cbn [app] in E. rewrite E in F. rewrite (par_first _ _ _ P2 y v3 eq_refl) in F. discriminate F.
Qed.
Lemma two_end bra kt b c i : 0 <= i -> m_two bra kt b (c :: dec i ++ [124]) = None.
Proof. intros Hi. unfold m_two. destruct (c =? bra); [|reflexivity]. cbv zeta. split_at i 124 (@nil Z) Hi (eq_refl (is_digit 124)). reflexivity. Qed.
Lemma ket_end f bras kt b : m_ket f bras kt b [124] = None.
Proof. unfold m_ket. destruct (_ && _); reflexivity. Qed.
Lemma bra_step0 f kets bra b c i : f c = true -> out_of_call b = true -> 0 <= i -> re_sub (m_bra f kets bra) b 0 (c :: dec i ++ [124]) = 111 :: 80 :: 115 :: 40 :: 39 :: bra :: dec i ++ [124; 39; 41].
Proof.
  intros F O Hi. replace (c :: dec i ++ [124]) with ((c :: dec i ++ [124]) ++ []) by (rewrite app_nil_r; reflexivity).
  rewrite (hit_eq _ _ _ _ [] (call (bra :: dec i ++ [124]))); [| discriminate | |reflexivity].
  - unfold call. change (lit "oPs('") with [111; 80; 115; 40; 39]. change (lit "')") with [39; 41]. cbn [app]. rewrite <- !app_assoc. reflexivity.
  - rewrite app_nil_r. unfold m_bra. rewrite F, O. cbn [andb]. cbv zeta. split_at i 124 (@nil Z) Hi (eq_refl (is_digit 124)). change (_ && _) with true. cbv iota. f_equal. f_equal. cbn [length app]. rewrite app_length. cbn [length]. lia.
Qed.
Lemma edge_facts b : free b -> out_of_call b = true /\ (forall f, not_behind [f; is_digit] b = true) /\ after_sum b = true.
Proof. destruct b as [|o b]; [intros _; repeat split|]. intros [-> |[-> | ->]]; repeat split; destruct b as [|? [|? b]]; reflexivity. Qed.
Lemma pair_hit ok f g b c d r r' : ok b = true -> f c = true -> g d = true -> re_sub (m_pair ok f g) (d :: c :: b) 0 r = r' -> re_sub (m_pair ok f g) b 0 (c :: d :: r) = c :: 42 :: d :: r'.
Proof. intros O F G E. change (c :: d :: r) with ([c; d] ++ r). rewrite (hit_eq (m_pair ok f g) b [c; d] r r' [c; 42; d]); [reflexivity|discriminate| |exact E]. cbn. rewrite O, F, G. reflexivity. Qed.
Lemma pair_miss ok f g b c r : f c = false -> m_pair ok f g b (c :: r) = None.
Proof. intros F. unfold m_pair. destruct r; [reflexivity|]. rewrite F, andb_false_r. reflexivity. Qed.
Ltac none3 :=
  first [solve [none2] |
  lazymatch goal with
  | |- m_NB _ _ = None => apply re_open; [side|reflexivity|first [reflexivity|exact I]]
  | |- m_two _ _ _ _ = None => apply two_end; side
  | |- m_ket _ _ _ _ _ = None => apply ket_end
  | |- m_pair _ _ _ _ _ = None => first [apply pair_miss; reflexivity | reflexivity]
  end].
Ltac digit3 := let d := fresh in let H := fresh in intros ? d ? H; apply digit_ten in H; repeat (destruct H as [<-|H]; [none3|]); destruct H.
Ltac hit3 :=
  lazymatch goal with
  | |- re_sub (m_bra _ _ _) _ _ (_ :: dec _ ++ [124]) = _ => apply bra_step0; [reflexivity|first [assumption|reflexivity]|side]
  | N : forall f, not_behind _ _ = true |- re_sub (m_ket _ _ _) _ _ (124 :: _) = _ => apply ket_step; [first [assumption|reflexivity]|first [apply N|reflexivity]|first [assumption|reflexivity]|reflexivity|reflexivity|side|first [assumption|reflexivity]|]
  | |- re_sub (m_pair _ _ _) _ _ (_ :: _ :: _) = _ => apply pair_hit; [reflexivity|reflexivity|reflexivity|]
  | |- _ => hit2
  end.
Ltac walk3 :=
  idtac; lazymatch goal with
  | |- re_sub _ _ 0 [] = _ => apply nil_eq
  | |- re_sub _ _ 0 (dec _ ++ _) = _ => apply dec_eq; [side|digit3|walk3]
  | E : forall b, re_sub _ b 0 ?r = _ |- re_sub _ _ 0 ?r = _ => apply E
  | |- re_sub _ _ 0 (_ :: _) = _ => first [hit3 | apply step_eq; [solve [none3]|]]; walk3
  end.
Ltac open2 := cbv [pt o_bra o_ket o_star bra_c ket_c].
(* [r] is empty, and then so is what becomes of it, or it starts with a sign *)
Ltac stages3 :=
  intros x H b r r' Hb Hf E; destruct (edge_facts b Hb) as (B1 & B2 & B3); destruct x as [[|] i j|[|] i [|] j]; destruct H as [Hi Hj]; open2;
  (destruct r as [|o r]; [pose proof (E []) as E0; cbn in E0; subst r'|destruct Hf as [-> |[-> | ->]]]); walk3.
Definition p0 := pt false false false false false false false.
Definition p1 := pt true false false false false false false.
Definition p2 := pt true true false false false false false.
Definition p3 := pt true true true false false false false.
Definition p4 := pt true true true true false false false.
Definition p5 := pt true true true true true false false.
Definition p6 := pt true true true true true true false.
Definition p7 := pt true true true true true true true.
Lemma q_bis : stage2 (m_bis 10216 10217) p0 p0. Proof. unfold p0. stages3. Qed.
Lemma q_two : stage2 (m_two 10216 10217) p0 p1. Proof. unfold p0, p1. stages3. Qed.
Lemma q_bis' : stage2 (m_bis 91 93) p1 p1. Proof. unfold p1. stages3. Qed.
Lemma q_two' : stage2 (m_two 91 93) p1 p2. Proof. unfold p1, p2. stages3. Qed.
Lemma q_s : stage2 m_s p2 p2. Proof. unfold p2. stages3. Qed.
Lemma q_NB : stage2 m_NB p2 p2. Proof. unfold p2. stages3. Qed.
Lemma q_Ab : stage2 (m_bra (cls [10216; 60]) (cls [10217; 124; 62]) 10216) p2 p3. Proof. unfold p2, p3. stages3. Qed.
Lemma q_Ak : stage2 (m_ket (cls [10217; 62]) (cls [10216; 124; 60]) 10217) p3 p4. Proof. unfold p3, p4. stages3. Qed.
Lemma q_Sb : stage2 (m_bra (is_c 91) (is_c 93) 91) p4 p5. Proof. unfold p4, p5. stages3. Qed.
Lemma q_Sk : stage2 (m_ket (is_c 93) (is_c 91) 93) p5 p6. Proof. unfold p5, p6. stages3. Qed.
Lemma q_begin : stage2 m_begin p6 p6. Proof. unfold p6. stages3. Qed.
Lemma q_open_end : stage2 m_open_end p6 p6. Proof. unfold p6. stages3. Qed.
Lemma q_double : stage2 m_double p6 p6. Proof. unfold p6. stages3. Qed.
Lemma q_dot : stage2 m_double_dot p6 p6. Proof. unfold p6. stages3. Qed.
Lemma q_join : stage2 (m_pair anything (is_c 41) (is_c 111)) p6 p7. Proof. unfold p6, p7. stages3. Qed.
