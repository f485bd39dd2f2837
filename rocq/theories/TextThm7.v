(* compute applied to the text of an expression: it is no single string of compute, and its value is
   that of the expression in the invariants of the point. *)
From Coq Require Import Ascii String.
From Coq Require Import List ZArith Bool Lia.
From Verif Require Import Base Fld Phase Compute Symm Str MassesThm GenSpec GenThm Parse ParseSpec ParseStars ParseLex ParseTree ParseFold ParseEval ParseVary Regex RegexThm Text TextSpec TextThm TextThm2 TextThm3 TextThm4 ExprSpec.
Import ListNotations.
Open Scope Z_scope.

(* characters that are not at the end *)
Fixpoint some (r : re) : bool :=
  match r with REps => false | RChr _ => true | RSeq a b | RAlt a b => some a || some b | RStar a | RGrp _ a => some a end.
Fixpoint inner (r : re) (c : Z) : bool :=
  match r with
  | REps | RChr _ => false
  | RSeq a b => inner a c || inner b c || chars a c && some b
  | RAlt a b => inner a c || inner b c
  | RStar a => chars a c
  | RGrp _ a => inner a c
  end.
Lemma par_some r s g : par r s g -> s <> [] -> some r = true.
Proof.
  induction 1 as [| f c H | a b s t g h _ IH1 _ IH2 | a b s g _ IH | a b s g _ IH | a | a s t g h N _ IH1 _ IH2 | n a s g _ IH]; intros E; cbn [some]; try congruence; try reflexivity.
  - destruct s; [rewrite IH2 by exact E; apply orb_true_r|rewrite IH1 by discriminate; reflexivity].
  - rewrite IH by exact E. reflexivity.
  - rewrite IH by exact E. apply orb_true_r.
  - apply IH1, N.
  - apply IH, E.
Qed.
Lemma app_mid (s t u : pystr) c v : s ++ t = u ++ c :: v -> (exists v', s = u ++ c :: v' /\ v = v' ++ t) \/ (exists u', u = s ++ u' /\ t = u' ++ c :: v).
Proof.
  revert u. induction s as [|x s IH]; intros u E; cbn [app] in E.
  - right. exists u. auto.
  - destruct u as [|y u]; cbn [app] in E; injection E as -> E.
    + left. exists s. auto.
    + destruct (IH u E) as [(v' & -> & ->)|(u' & -> & ->)]; [left; exists v'|right; exists u']; auto.
Qed.
Lemma par_inner r s g : par r s g -> forall u c v, s = u ++ c :: v -> v <> [] -> inner r c = true.
Proof.
  induction 1 as [| f c H | a b s t g h P1 IH1 P2 IH2 | a b s g _ IH | a b s g _ IH | a | a s t g h N P1 IH1 P2 IH2 | n a s g _ IH]; intros u k v E V; cbn [inner].
  - destruct u; discriminate.
  - destruct u as [|? [|? ?]]; try discriminate. injection E as _ <-. congruence.
  - destruct (app_mid _ _ _ _ _ E) as [(v' & -> & ->)|(u' & -> & ->)].
    + destruct v' as [|x v'].
      * rewrite (par_chars _ _ _ P1 k), (par_some _ _ _ P2); [apply orb_true_r|exact V|apply in_app_iff; right; left; reflexivity].
      * rewrite (IH1 u k (x :: v') eq_refl ltac:(discriminate)). reflexivity.
    + rewrite (IH2 u' k v eq_refl V). rewrite orb_true_r. reflexivity.
  - rewrite (IH _ _ _ E V). reflexivity.
  - rewrite (IH _ _ _ E V). apply orb_true_r.
  - destruct u; discriminate.
  - assert (X : In k (s ++ t)) by (rewrite E; apply in_app_iff; right; left; reflexivity). exact (par_chars _ _ _ (par_more a s t g h N P1 P2) k X).
  - exact (IH _ _ _ E V).
Qed.
Lemma no_inner r u c v : inner r c = false -> v <> [] -> search r (u ++ c :: v) = None.
Proof. intros H V. apply search_none. intros g P. rewrite (par_inner _ _ _ P u c v eq_refl V) in H. discriminate. Qed.
Lemma no_inner' r t u c v : t = u ++ c :: v -> v <> [] -> inner r c = false -> search r t = None.
Proof. intros -> V H. apply no_inner; assumption. Qed.

(* ---- the text of an expression ---- *)
Definition rest (t : tok) (r : pystr) : Prop := exists c u, r = c :: u /\ (is_digit c = true \/ In c leads) /\ (num_end t = true -> is_digit c = false).
Definition kin (u t : pystr) : Prop := map conv u = t /\ ~ In 8722 u.
Lemma kin_app u x y : kin u (x ++ y) -> exists u1 u2, u = u1 ++ u2 /\ kin u1 x /\ kin u2 y.
Proof. intros [E N]. apply map_eq_app in E. destruct E as (u1 & u2 & -> & E1 & E2). exists u1, u2. split; [reflexivity|]. split; (split; [assumption|]); intros I; apply N, in_app_iff; auto. Qed.
Lemma kin_cons u c y : kin u (c :: y) -> exists k u2, u = k :: u2 /\ conv k = c /\ k <> 8722 /\ kin u2 y.
Proof. intros [E N]. destruct u as [|k u]; [discriminate E|]. injection E as E1 E2. exists k, u. split; [reflexivity|]. split; [exact E1|]. split; [intros ->; apply N; left; reflexivity|]. split; [exact E2|]. intros I. apply N. right. exact I. Qed.
Lemma conv_back k c : conv k = c -> k <> 8722 -> c <> 10216 -> c <> 10217 -> k = c.
Proof. unfold conv. intros E N A B. rewrite (proj2 (Z.eqb_neq _ _) N) in E. destruct (k =? 60); [congruence|]. destruct (k =? 62); congruence. Qed.
Lemma kin_id u t : kin u t -> ~ In 10216 t -> ~ In 10217 t -> u = t.
Proof.
  revert u. induction t as [|c t IH]; intros u H A B.
  - destruct H as [E _]. destruct u; [reflexivity|discriminate E].
  - apply kin_cons in H. destruct H as (k & u2 & -> & E & N & H). rewrite (IH u2 H) by (intros I; first [apply A; right; exact I|apply B; right; exact I]). f_equal. apply (conv_back k c E N); intros ->; [apply A|apply B]; left; reflexivity.
Qed.
Lemma kin_open k : conv k = 10216 -> k <> 8722 -> k = 10216 \/ k = 60.
Proof. unfold conv. intros E N. rewrite (proj2 (Z.eqb_neq _ _) N) in E. destruct (k =? 60) eqn:X; [right; lia|]. destruct (k =? 62); [discriminate E|left; exact E]. Qed.
Lemma kin_shut k : conv k = 10217 -> k <> 8722 -> k = 10217 \/ k = 62.
Proof. unfold conv. intros E N. rewrite (proj2 (Z.eqb_neq _ _) N) in E. destruct (k =? 60); [discriminate E|]. destruct (k =? 62) eqn:X; [right; lia|left; exact E]. Qed.
Lemma rest_not t c : num_end t = true -> (is_digit c = true \/ In c (60 :: leads)) -> (num_end t = true -> is_digit c = false) -> ~ (48 <= c <= 57) /\ c <> 95 /\ c <> 124.
Proof.
  intros N [D|L] H; [rewrite (H N) in D; discriminate|]. specialize (H N). split; [intros X; apply digit_range in X; congruence|]. cbn in L. lia.
Qed.
Ltac first_gone := repeat match goal with |- context [search ?r (?c :: ?u)] => rewrite (no_first r c u) by reflexivity end.
Lemma class_plain c u : In c [40; 41; 43; 45; 42; 47; 94; 48; 49; 50; 51; 52; 53; 54; 55; 56; 57] -> classify (c :: u) = TExpr.
Proof. intros I. cbn in I. repeat (destruct I as [<-|I]; [unfold classify; first_gone; reflexivity|]). destruct I. Qed.
Lemma class_bracket o w k r : In o [10216; 91; 60] -> In k [10217; 93; 62] -> r <> [] -> classify (o :: w ++ k :: r) = TExpr.
Proof.
  intros O C R. assert (E : o :: w ++ k :: r = (o :: w) ++ k :: r) by reflexivity.
  destruct O as [<-|[<-|[<-|[]]]]; destruct C as [<-|[<-|[<-|[]]]]; unfold classify; first_gone;
    repeat match goal with |- context [search ?r0 ?t] => rewrite (no_inner' r0 t _ _ _ E R) by reflexivity end; reflexivity.
Qed.
Lemma search_no r t : (forall g, ~ par r t g) -> search r t = None. Proof. apply search_none. Qed.
Lemma class_s d c u : ~ (48 <= c <= 57) -> c <> 95 -> classify (115 :: 95 :: d ++ c :: u) = TExpr.
Proof.
  intros N1 N2. unfold classify. first_gone. rewrite (search_no pSijk); [reflexivity|]. intros g P. apply shape_S in P. destruct P as (l & v & e & E & _ & U & (_ & D) & _). injection E as _ E.
  assert (X : In c (v ++ e)) by (rewrite <- E; right; apply in_app_iff; right; left; reflexivity). apply in_app_iff in X. destruct X as [X|X].
  - destruct U as [-> | ->]; [cbn in X; lia|destruct X].
  - apply (proj1 (Forall_forall _ _) D) in X. lia.
Qed.
Lemma class_pre k d c u : In k [937; 928] -> ~ (48 <= c <= 57) -> classify (k :: 95 :: d ++ c :: u) = TExpr.
Proof.
  intros Ik N. assert (G : forall g, ~ par (RSeq (rlit [k; 95]) (RGrp 1 rnum)) (k :: 95 :: d ++ c :: u) g).
  { intros g P. apply shape_pre in P. destruct P as (e & E & (_ & D) & _). injection E as E. assert (X : In c e) by (rewrite <- E; apply in_app_iff; right; left; reflexivity). apply (proj1 (Forall_forall _ _) D) in X. lia. }
  destruct Ik as [<-|[<-|[]]]; unfold classify; first_gone.
  - rewrite (search_no pOijk) by exact G. reflexivity.
  - rewrite (search_no pPijk) by exact G. reflexivity.
Qed.
Lemma class_D d c u : ~ (48 <= c <= 57) -> c <> 124 -> classify (916 :: 95 :: d ++ c :: u) = TExpr.
Proof.
  intros N1 N2. unfold classify. first_gone. rewrite (search_no pDijk); [reflexivity|]. intros g P. apply shape_D in P. destruct P as (m & E & P & _). injection E as E.
  assert (X : In c m) by (rewrite <- E; apply in_app_iff; right; left; reflexivity). apply (par_chars _ _ _ P) in X. cbn [chars d_mid rnum rplus rc] in X.
  assert (Y : is_digit c = false) by (destruct (is_digit c) eqn:Y; [apply digit_range in Y; tauto|reflexivity]). unfold d_mid, rnum, rplus, rc in X. cbn [chars] in X. rewrite Y in X.
  rewrite (proj2 (Z.eqb_neq _ _)) in X by (unfold c_bar; congruence). discriminate X.
Qed.
Lemma tr_round m g : par tr_mid m g -> forall x y, m = x ++ 41 :: y -> In 40 x.
Proof.
  unfold tr_mid. intros P. remember (RStar _) as r eqn:Er. revert Er. induction P as [| | | | | a | a s t g h N P1 _ P2 IH |]; intros Er x y E; try discriminate Er.
  - destruct x; discriminate E.
  - injection Er as ->. specialize (IH eq_refl). apply par_RAlt in P1. destruct P1 as [P1|P1].
    + apply par_RSeq in P1. destruct P1 as (p & q & ? & ? & -> & _ & P1 & _). apply par_rc in P1. destruct P1 as [-> _]. destruct x as [|z x]; [discriminate E|]. injection E as <- _. left. reflexivity.
    + apply par_plus_chr in P1. destruct P1 as (_ & F & _). destruct (app_mid _ _ _ _ _ E) as [(v' & -> & _)|(u' & -> & E2)].
      * apply Forall_app in F. destruct F as [_ F]. inversion F as [|? ? F1 _]. discriminate F1.
      * apply in_app_iff. right. exact (IH _ _ E2).
Qed.
Lemma class_tr x r : ~ In 40 x -> r <> [] -> classify (lit "tr(" ++ x ++ 41 :: r) = TExpr.
Proof.
  intros N R. change (lit "tr(" ++ x ++ 41 :: r) with (116 :: 114 :: 40 :: x ++ 41 :: r). unfold classify. rewrite (search_no ptr5).
  2:{ intros g P. apply shape_tr5 in P. destruct P as [(d & E & _)|(m & E & _)]; discriminate E. }
  rewrite (search_no ptr). 2:{ intros g P. apply shape_tr in P. destruct P as (m & E & P & _). injection E as E. destruct (exists_last R) as (r' & k & ->). change (x ++ 41 :: r' ++ [k]) with (x ++ (41 :: r') ++ [k]) in E. rewrite app_assoc in E.
    apply app_inj_tail in E. destruct E as [E _]. apply N. exact (tr_round m _ P x r' (eq_sym E)). }
  first_gone. reflexivity.
Qed.
Lemma class_tr5 x r : r <> [] -> classify (lit "tr5(" ++ x ++ 41 :: r) = TExpr.
Proof.
  intros R. change (lit "tr5(" ++ x ++ 41 :: r) with (116 :: 114 :: 53 :: 40 :: x ++ 41 :: r). unfold classify. rewrite (search_no ptr5).
  2:{ intros g P. apply shape_tr5 in P. destruct P as [(d & E & _)|(m & E & _ & F & _)]; [discriminate E|]. injection E as E. destruct (exists_last R) as (r' & k & ->). change (x ++ 41 :: r' ++ [k]) with (x ++ (41 :: r') ++ [k]) in E. rewrite app_assoc in E.
    apply app_inj_tail in E. destruct E as [E _]. rewrite <- E in F. apply Forall_app in F. destruct F as [_ F]. inversion F as [|? ? F1 _]. discriminate F1. }
  rewrite (search_no ptr). 2:{ intros g P. apply shape_tr in P. destruct P as (m & E & _). discriminate E. }
  first_gone. reflexivity.
Qed.
Lemma class_tr5n d c u : ~ (48 <= c <= 57) -> classify (lit "tr5_" ++ d ++ c :: u) = TExpr.
Proof.
  intros N. change (lit "tr5_" ++ d ++ c :: u) with (116 :: 114 :: 53 :: 95 :: d ++ c :: u). unfold classify. rewrite (search_no ptr5).
  2:{ intros g P. apply shape_tr5 in P. destruct P as [(e & E & (_ & D) & _)|(m & E & _)]; [|discriminate E]. injection E as E. assert (X : In c e) by (rewrite <- E; apply in_app_iff; right; left; reflexivity). apply (proj1 (Forall_forall _ _) D) in X. lia. }
  rewrite (search_no ptr). 2:{ intros g P. apply shape_tr in P. destruct P as (m & E & _). discriminate E. }
  first_gone. reflexivity.
Qed.
Lemma bare_40 m ms : Forall slot_ok (m :: ms) -> Forall ParseSpec.bare (m :: ms) -> ~ In 40 (slot_text m ++ slots ms).
Proof.
  assert (X : forall m, slot_ok m -> ParseSpec.bare m -> ~ In 40 (slot_text m)).
  { intros [p i l] (Ki & Kl & _) B J. cbn in B. subst p. cbn [slot_text app] in J. rewrite app_nil_r in J. apply in_app_iff in J. unfold label in Ki. destruct J as [J|J]; [apply dec_in in J; lia|].
    apply in_concat in J. destruct J as (w & Iw & J). apply in_map_iff in Iw. destruct Iw as ((s, k) & <- & Ik). apply (proj1 (Forall_forall _ _) Kl) in Ik. unfold label in Ik. cbn [snd] in Ik. unfold signed in J. cbn [fst snd] in J. destruct J as [J|J]; [destruct s; discriminate J|apply dec_in in J; lia]. }
  intros F B J. apply in_app_iff in J. inversion F as [|? ? F1 F2]; subst. inversion B as [|? ? B1 B2]; subst. destruct J as [J|J]; [exact (X m F1 B1 J)|]. unfold slots in J. apply in_concat in J. destruct J as (w & Iw & J). apply in_map_iff in Iw. destruct Iw as (m' & <- & Im).
  destruct J as [J|J]; [discriminate J|]. exact (X m' (proj1 (Forall_forall _ _) F2 _ Im) (proj1 (Forall_forall _ _) B2 _ Im) J).
Qed.
Lemma class_kin_br o w k c r u : In o [10216; 91] -> In k [10217; 93] -> kin u (o :: w ++ k :: c :: r) -> classify u = TExpr.
Proof.
  intros O C H. apply kin_cons in H. destruct H as (o' & u1 & -> & Eo & No & H). apply kin_app in H. destruct H as (u2 & u3 & -> & _ & H). apply kin_cons in H. destruct H as (k' & u4 & -> & Ek & Nk & H).
  apply kin_cons in H. destruct H as (c' & u5 & -> & _). apply class_bracket; [| |discriminate].
  - destruct O as [<-|[<-|[]]]; [destruct (kin_open _ Eo No) as [-> | ->]; cbn; tauto|rewrite (conv_back _ _ Eo No) by discriminate; cbn; tauto].
  - destruct C as [<-|[<-|[]]]; [destruct (kin_shut _ Ek Nk) as [-> | ->]; cbn; tauto|rewrite (conv_back _ _ Ek Nk) by discriminate; cbn; tauto].
Qed.
Lemma slots_no x ms : Forall slot_ok ms -> x = 10216 \/ x = 10217 -> ~ In x (slots ms) /\ forall m, In m ms -> ~ In x (slot_text m).
Proof.
  intros F X. assert (Y : forall m, In m ms -> ~ In x (slot_text m)).
  { intros [p i l] Im. apply (proj1 (Forall_forall _ _) F) in Im. destruct Im as (Ki & Kl & _). unfold label in Ki. intros J. unfold slot_text in J. 
    repeat (apply in_app_iff in J; destruct J as [J|J]); try (apply dec_in in J; lia); try (destruct p; cbn in J; lia).
    apply in_concat in J. destruct J as (w & Iw & J). apply in_map_iff in Iw. destruct Iw as ((s, k) & <- & Ik). apply (proj1 (Forall_forall _ _) Kl) in Ik. unfold label in Ik. cbn [snd] in Ik. unfold signed in J. cbn [fst snd] in J. destruct J as [J|J]; [destruct s; lia|apply dec_in in J; lia]. }
  split; [|exact Y]. intros J. unfold slots in J. apply in_concat in J. destruct J as (w & Iw & J). apply in_map_iff in Iw. destruct Iw as (m' & <- & Im). destruct J as [J|J]; [lia|exact (Y m' Im J)].
Qed.
Lemma class_inv_raw a r : inv_ok a -> (exists c u, r = c :: u /\ (is_digit c = true \/ In c (60 :: leads)) /\ (num_end (ParseSpec.TInv a) = true -> is_digit c = false)) -> classify (inv_text a ++ r) = TExpr.
Proof.
  intros K (c & u & -> & L & D). destruct (digit_end a) eqn:N.
  - destruct (rest_not (ParseSpec.TInv a) c N L D) as (C1 & C2 & C3). destruct a; try discriminate N; cbn [inv_text].
    + change ((lit "s_" ++ dec n) ++ c :: u) with (115 :: 95 :: dec n ++ c :: u). apply class_s; assumption.
    + rewrite <- app_assoc. apply class_tr5n; assumption.
    + apply class_pre; [cbn; tauto|assumption].
    + apply class_pre; [cbn; tauto|assumption].
    + apply class_D; assumption.
  - destruct a as [i j|i j| |l i m ms j k|m ms|m ms| | | |]; try discriminate N; cbn [inv_text].
    + replace ((10216 :: dec i ++ 124 :: dec j ++ [10217]) ++ c :: u) with (10216 :: (dec i ++ 124 :: dec j) ++ 10217 :: c :: u) by (cbn [app]; rewrite <- !app_assoc; cbn [app]; rewrite <- app_assoc; reflexivity). apply class_bracket; try (cbn; tauto); discriminate.
    + replace ((91 :: dec i ++ 124 :: dec j ++ [93]) ++ c :: u) with (91 :: (dec i ++ 124 :: dec j) ++ 93 :: c :: u) by (cbn [app]; rewrite <- !app_assoc; cbn [app]; rewrite <- app_assoc; reflexivity). apply class_bracket; try (cbn; tauto); discriminate.
    + generalize (slots (m :: ms)). intros w. replace (((if l then 10216 else 91) :: dec i ++ w ++ 124 :: dec j ++ [if k then 10217 else 93]) ++ c :: u) with ((if l then 10216 else 91) :: (dec i ++ w ++ 124 :: dec j) ++ (if k then 10217 else 93) :: c :: u)
        by (cbn [app]; rewrite <- !app_assoc; cbn [app]; rewrite <- app_assoc; reflexivity). apply class_bracket; [destruct l; cbn; tauto|destruct k; cbn; tauto|discriminate].
    + replace ((lit "tr(" ++ slot_text m ++ slots ms ++ [41]) ++ c :: u) with (lit "tr(" ++ (slot_text m ++ slots ms) ++ 41 :: c :: u) by (rewrite <- !app_assoc; reflexivity). apply class_tr; [|discriminate]. destruct K. apply bare_40; assumption.
    + replace ((lit "tr5(" ++ slot_text m ++ slots ms ++ [41]) ++ c :: u) with (lit "tr5(" ++ (slot_text m ++ slots ms) ++ 41 :: c :: u) by (rewrite <- !app_assoc; reflexivity). apply class_tr5. discriminate.
Qed.
Lemma inv_bare a : inv_ok a -> (forall x, x = 10216 \/ x = 10217 -> ~ In x (inv_text a)) \/ exists o w k, In o [10216; 91] /\ In k [10217; 93] /\ inv_text a = o :: w ++ [k].
Proof.
  intros K. assert (X : forall n, 0 <= n -> forall x, x = 10216 \/ x = 10217 -> ~ In x (dec n)) by (intros n Hn x Hx I; apply dec_in in I; lia).
  assert (T : forall l : pystr, (forall x, In x l -> x < 1000) -> forall u x, x = 10216 \/ x = 10217 -> ~ In x u -> ~ In x (l ++ u)).
  { intros l Hl u x Hx N I. apply in_app_iff in I. destruct I as [I|I]; [apply Hl in I; lia|exact (N I)]. }
  destruct a as [i j|i j|n|l i m ms j k|m ms|m ms|n|n|n|n m ns]; cbn [inv_text inv_ok] in *; unfold label in *.
  - right. exists 10216, (dec i ++ 124 :: dec j), 10217. rewrite <- app_assoc. cbn. tauto.
  - right. exists 91, (dec i ++ 124 :: dec j), 93. rewrite <- app_assoc. cbn. tauto.
  - left. intros x Hx. apply T; [cbn; lia|exact Hx|apply X; [lia|exact Hx]].
  - right. exists (if l then 10216 else 91), (dec i ++ slots (m :: ms) ++ 124 :: dec j), (if k then 10217 else 93). split; [destruct l; cbn; tauto|]. split; [destruct k; cbn; tauto|]. f_equal. rewrite <- !app_assoc. reflexivity.
  - left. intros x Hx. destruct K as [K _]. destruct (slots_no x (m :: ms) K Hx) as [Y1 Y2]. apply T; [cbn; lia|exact Hx|]. intros J. apply in_app_iff in J. destruct J as [J|J]; [exact (Y2 m (or_introl eq_refl) J)|]. inversion K as [|? ? _ K2]; subst. destruct (slots_no x ms K2 Hx) as [Y3 _]. apply in_app_iff in J. destruct J as [J|J]; [exact (Y3 J)|cbn in J; lia].
  - left. intros x Hx. destruct K as [K _]. destruct (slots_no x (m :: ms) K Hx) as [Y1 Y2]. apply T; [cbn; lia|exact Hx|]. intros J. apply in_app_iff in J. destruct J as [J|J]; [exact (Y2 m (or_introl eq_refl) J)|]. inversion K as [|? ? _ K2]; subst. destruct (slots_no x ms K2 Hx) as [Y3 _]. apply in_app_iff in J. destruct J as [J|J]; [exact (Y3 J)|cbn in J; lia].
  - left. intros x Hx. apply T; [cbn; lia|exact Hx|apply X; [lia|exact Hx]].
  - left. intros x Hx. intros [J|[J|J]]; try lia. revert J. apply X; [lia|exact Hx].
  - left. intros x Hx. intros [J|[J|J]]; try lia. revert J. apply X; [lia|exact Hx].
  - left. intros x Hx. intros [J|[J|J]]; try lia. inversion K as [|? ? K1 K2]; subst. apply in_app_iff in J. destruct J as [J|J]; [revert J; apply X; [lia|exact Hx]|]. apply in_concat in J. destruct J as (w & Iw & J). apply in_map_iff in Iw. destruct Iw as (k & <- & Ik).
    apply (proj1 (Forall_forall _ _) K2) in Ik. unfold barred in J. destruct J as [J|J]; [lia|revert J; apply X; [lia|exact Hx]].
Qed.
Lemma class_inv a r u : inv_ok a -> rest (ParseSpec.TInv a) r -> kin u (inv_text a ++ r) -> classify u = TExpr.
Proof.
  intros K (c & v & -> & L & D) H. destruct (inv_bare a K) as [N|(o & w & k & Io & Ik & E)].
  - apply kin_app in H. destruct H as (u1 & u2 & -> & H1 & H2). rewrite (kin_id u1 _ H1) by (apply N; tauto). apply class_inv_raw; [exact K|]. apply kin_cons in H2. destruct H2 as (c' & u3 & -> & Ec & Nc & _). exists c', u3. split; [reflexivity|].
    assert (C : c' = c \/ c = 10216 /\ c' = 60).
    { destruct (Z.eq_dec c 10216) as [-> |N1]; [destruct (kin_open _ Ec Nc); tauto|]. destruct (Z.eq_dec c 10217) as [-> |N2]; [exfalso; destruct L as [L|L]; [discriminate L|cbn in L; lia]|]. left. apply conv_back; assumption. }
    destruct C as [-> |[-> ->]]; [split; [destruct L as [L|L]; [left; exact L|right; right; exact L]|exact D]|]. split; [right; left; reflexivity|reflexivity].
  - rewrite E in H. cbn [app] in H. rewrite <- app_assoc in H. cbn [app] in H. exact (class_kin_br o w k c v u Io Ik H).
Qed.
Lemma digit_list c : is_digit c = true -> In c [40; 41; 43; 45; 42; 47; 94; 48; 49; 50; 51; 52; 53; 54; 55; 56; 57].
Proof. intros D. apply digit_range in D. assert (c = 48 \/ c = 49 \/ c = 50 \/ c = 51 \/ c = 52 \/ c = 53 \/ c = 54 \/ c = 55 \/ c = 56 \/ c = 57) as Y by lia. cbn. intuition congruence. Qed.
Lemma class_toks ts u : Forall tok_ok ts -> adj rawpair ts -> ts <> [] -> (forall a, ts <> [ParseSpec.TInv a]) -> kin u (txt tok_text ts) -> classify u = TExpr.
Proof.
  intros F A N1 N2 H. destruct ts as [|t ts]; [congruence|]. inversion F as [|? ? K F']; subst. rewrite txt_cons in H.
  assert (P : forall c w, In c [40; 41; 43; 45; 42; 47; 94; 48; 49; 50; 51; 52; 53; 54; 55; 56; 57] -> kin u (c :: w) -> classify u = TExpr).
  { intros c w I Hc. apply kin_cons in Hc. destruct Hc as (c' & u' & -> & E & N & _). rewrite (conv_back _ _ E N) by (intros ->; cbn in I; lia). apply class_plain, I. }
  destruct t as [n|a| | | | | | |]; try (eapply P; [|exact H]; cbn; tauto).
  - cbn [tok_text] in H. cbn in K. destruct (dec_cons n K) as (d & ds & E). assert (J := dec_numeric n K). rewrite E in *. inversion J as [|? ? D _]; subst. cbn [app] in H. eapply P; [|exact H]. apply digit_list, D.
  - destruct ts as [|t' ts]; [exfalso; exact (N2 a eq_refl)|]. cbn [tok_text] in H. revert H. apply class_inv; [exact K|]. inversion F' as [|? ? K' _]; subst.
    assert (X := after_adj false 0 _ F A [] (ParseSpec.TInv a) (t' :: ts) eq_refl). destruct (st_hd false 0 t' K') as (c & v & E & _). assert (E' : tok_text t' = c :: v) by (rewrite <- E; destruct t' as [|[]| | | | | | |]; reflexivity).
    rewrite txt_cons in *. rewrite E in X. rewrite E'. cbn [app] in *. destruct X as (X1 & _ & X2). exists c, (v ++ txt tok_text ts). auto.
Qed.
Lemma toks_nil e : toks [] e <> [].
Proof. induction e; cbn [toks]; try discriminate; intros X; apply app_eq_nil in X; destruct X as [X1 X2]; try discriminate X2; contradiction. Qed.
Lemma toks_len e : (1 <= length (toks [] e))%nat.
Proof. assert (X := toks_nil e). destruct (toks [] e); [congruence|cbn; lia]. Qed.
Lemma toks_single e a : toks [] e = [ParseSpec.TInv a] -> e = Inv a.
Proof.
  intros E. assert (L := f_equal (@length tok) E). destruct e; cbn [toks] in *; try (injection E as ->; reflexivity); try discriminate E; rewrite ?app_length in L; cbn [length] in L; rewrite ?app_length in L; cbn [length app] in L;
    try (assert (X1 := toks_len e1)); try (assert (X2 := toks_len e2)); try (assert (X := toks_len e)); rewrite ?app_length in L; lia.
Qed.
Lemma no_char r u x : chars r x = false -> In x u -> search r u = None.
Proof. intros H I. apply search_none. intros g P. rewrite (par_chars _ _ _ P x I) in H. discriminate. Qed.
Lemma class_odd u x : In x u -> x = 32 \/ x = 8722 -> classify u = TExpr.
Proof.
  intros I [-> | ->]; unfold classify; repeat match goal with |- context [search ?r u] => rewrite (fun H => no_char r u _ H I) by reflexivity end; reflexivity.
Qed.
Lemma as_kin t u : written_as t u -> (forall x, In x t -> ~ odd x) -> ~ In 10 u -> ~ In 32 u -> ~ In 8722 u -> kin u t.
Proof.
  intros W O N1 N2 N3. split; [|exact N3]. rewrite <- (norm_as t u W O). unfold norm. symmetry. clear W O N3. induction u as [|c u IH]; [reflexivity|]. cbn [map filter].
  rewrite IH by (intros I; first [apply N1; right; exact I|apply N2; right; exact I]). assert (C : conv c <> 10 /\ conv c <> 32).
  { unfold conv. destruct (c =? 8722); [lia|]. destruct (c =? 60); [lia|]. destruct (c =? 62); [lia|]. split; intros ->; [apply N1|apply N2]; left; reflexivity. }
  rewrite !(proj2 (Z.eqb_neq (conv c) _)) by tauto. reflexivity.
Qed.
Theorem class_expr e u : sum e -> (forall a, e <> Inv a) -> written_as (written e) u -> ~ In 10 u -> classify u = TExpr.
Proof.
  intros S N W NL. destruct (in_dec Z.eq_dec 32 u) as [I|N1]; [exact (class_odd u 32 I (or_introl eq_refl))|]. destruct (in_dec Z.eq_dec 8722 u) as [I|N2]; [exact (class_odd u 8722 I (or_intror eq_refl))|].
  assert (H : kin u (written e)) by (apply as_kin; try assumption; intros x I J; exact (written_chars e x S I (odd_strange x J))). revert H. unfold written. change (concat (map tok_text (toks [] e))) with (txt tok_text (toks [] e)).
  apply class_toks; [apply toks_ok; [constructor|exact S]|apply adj_raw, S|apply toks_nil|]. intros a E. exact (N a (toks_single e a E)).
Qed.
Lemma thin_id t : (forall c, In c t -> c < 120782) -> map thin t = t.
Proof. induction t as [|c t IH]; intros H; [reflexivity|]. cbn [map]. rewrite IH by (intros; apply H; right; assumption). f_equal. unfold thin. assert (c < 120782) by (apply H; left; reflexivity). rewrite (proj2 (Z.leb_gt _ _)) by lia. reflexivity. Qed.
Lemma written_thin e u : sum e -> written_as (written e) u -> unbold u = Ok u.
Proof.
  intros S W. rewrite unbold_map. f_equal. apply thin_id. intros c I. destruct (as_chars _ _ _ W I) as [J|J]; [clear I; rename J into I|unfold odd in J; lia]. assert (F : Forall tok_ok (toks [] e)) by (apply toks_ok; [constructor|exact S]).
  destruct (Z.lt_ge_cases c 120782) as [L|L]; [exact L|]. exfalso. unfold written in I. apply (txt_strange false 0 (toks [] e) c); [|exact F|].
  - repeat split; [lia|cbn; lia|cbn; lia].
  - change (concat (map tok_text (toks [] e))) with (txt tok_text (toks [] e)) in I. replace (txt (st false 0) (toks [] e)) with (txt tok_text (toks [] e)); [exact I|]. unfold txt. f_equal. apply map_ext. intros [|[]| | | | | | |]; reflexivity.
Qed.
(* ---- the words of an expression are the strings of compute ---- *)
Lemma str_legs n : 0 <= n -> legs (str n).
Proof. intros H. split; [|exact (proj2 (str_val n H))]. intros E. apply (dec_nil n H). unfold dec. rewrite E. reflexivity. Qed.
Lemma entry_text_of m : slot_ok m -> slot_text m = (if match m with Slot p _ _ => p end then lit "(" ++ entry_text (entry_of m) ++ lit ")" else entry_text (entry_of m)) /\ entry_ok (entry_of m).
Proof.
  destruct m as [p i l]. intros (Ki & Kl & _). cbn [entry_of slot_text]. unfold entry_text, entry_ok. cbn [fst snd]. unfold label in *.
  assert (E : concat (map signed l) = concat (map (fun x => sign_text (fst x) ++ dec (snd x)) (map (fun x => (negb (fst x), snd x)) l))).
  { rewrite map_map. f_equal. apply map_ext. intros [[] k]; reflexivity. }
  rewrite E. split.
  - destruct p; cbn [app]; rewrite ?app_nil_r; [|reflexivity]. change (lit "(") with [40]. change (lit ")") with [41]. cbn [app]. rewrite <- !app_assoc. reflexivity.
  - split; [lia|]. apply Forall_map. eapply Forall_impl; [|exact Kl]. intros x Hx. cbn beta in *. cbn [snd]. lia.
Qed.
Lemma slot_shows m : slot_ok m -> shows_entry (entry_of m) (slot_text m).
Proof. intros H. destruct (entry_text_of m H) as [E O]. rewrite E. destruct m as [[] i l]; [apply round, O|apply TextSpec.bare, O]. Qed.
Lemma slots_show ms : forall m, Forall slot_ok (m :: ms) -> shows_entries (map entry_of (m :: ms)) (slot_text m ++ slots ms).
Proof.
  induction ms as [|m' ms IH]; intros m F; inversion F as [|? ? F1 F2]; subst.
  - cbn [map]. unfold slots. cbn [map concat]. rewrite app_nil_r. apply last_entry, slot_shows, F1.
  - cbn [map]. change (slot_text m ++ slots (m' :: ms)) with (slot_text m ++ lit "|" ++ slot_text m' ++ slots ms). apply next_entry; [apply slot_shows, F1|apply (IH m' F2)].
Qed.
Lemma slots_bare ms : forall m, Forall slot_ok (m :: ms) -> Forall ParseSpec.bare (m :: ms) -> shows_bare (map entry_of (m :: ms)) (slot_text m ++ slots ms).
Proof.
  induction ms as [|m' ms IH]; intros m F B; inversion F as [|? ? F1 F2]; subst; inversion B as [|? ? B1 B2]; subst; destruct (entry_text_of m F1) as [E O]; destruct m as [p i l]; cbn in B1; subst p; rewrite E.
  - cbn [map]. unfold slots. cbn [map concat]. rewrite app_nil_r. apply last_bare, O.
  - cbn [map]. match goal with |- shows_bare _ (?x ++ _) => change (shows_bare (entry_of (Slot false i l) :: map entry_of (m' :: ms)) (x ++ lit "|" ++ slot_text m' ++ slots ms)) end. apply next_bare; [exact O|apply (IH m' F2 B2)].
Qed.
Lemma corners_show ns : forall n, Forall (fun k => 0 <= k <= 9999) (n :: ns) -> shows_corners (map str (n :: ns)) (dec n ++ concat (map (fun k => barred (dec k)) ns)).
Proof.
  induction ns as [|m ns IH]; intros n F; inversion F as [|? ? F1 F2]; subst.
  - cbn [map concat]. rewrite app_nil_r. apply last_corner, str_legs. lia.
  - apply (next_corner (str n) (map str (m :: ns)) (dec m ++ concat (map (fun k => barred (dec k)) ns))); [apply str_legs; lia|apply (IH m F2)].
Qed.
Lemma named_shows a i : inv_ok a -> named a = Some i -> shows i (inv_text a).
Proof.
  intros K E. destruct a as [a b|a b|n|l a m ms b r|m ms|m ms|n|n|n|n m ns]; cbn [named inv_ok inv_text] in *.
  - injection E as <-. apply (w_A2 a b OAng CAng); try tauto; left; reflexivity.
  - injection E as <-. apply (w_S2 a b); tauto.
  - injection E as <-. apply (w_S (str n) (lit "s") (lit "_")); [left; reflexivity|left; reflexivity|apply str_legs, K].
  - injection E as <-. destruct K as (Ka & F & Kb). unfold label in Ka.
    assert (W := w_chain (if l then OAng else OSq) a _ _ b (if r then CAng else CSq) (proj1 Ka) Kb (slots_show ms m F)).
    match goal with |- shows _ ?t => match type of W with shows _ ?t' => replace t with t'; [exact W|] end end. change (slots (m :: ms)) with (124 :: slot_text m ++ slots ms).
    change (lit "|") with [124]. destruct l, r; cbn [opening closing app]; rewrite <- ?app_assoc; reflexivity.
  - injection E as <-. destruct K as (F & B). assert (W := w_tr _ _ (slots_show ms m F)). rewrite <- app_assoc in W. exact W.
  - destruct K as (F & B). destruct ms as [|b [|c [|d [|x y]]]]; try discriminate E. injection E as <-. assert (W := w_tr5_round _ _ _ _ _ (slots_bare _ m F B)). rewrite <- app_assoc in W. exact W.
  - destruct (str n) as [|a [|b [|c [|d [|x y]]]]] eqn:S; try discriminate E. injection E as <-. unfold dec. rewrite S. apply (w_tr5 a b c d). rewrite <- S. exact (proj2 (str_val n K)).
  - injection E as <-. apply (w_Om (str n)), str_legs, K.
  - injection E as <-. apply (w_Pi (str n)), str_legs, K.
  - injection E as <-. apply (w_Delta (map str (n :: m :: ns)) (dec n ++ concat (map (fun k => barred (dec k)) (m :: ns)))); [cbn [map length]; lia|apply corners_show, K].
Qed.
Section Value.
Context {K : Fld}.
Lemma value_ext (m m' : ParseSpec.inv -> option K) e : (forall a x, In (ParseSpec.TInv a) (toks [] e) -> m a = Some x -> m' a = Some x) -> forall v, value_of m e = Some v -> value_of m' e = Some v.
Proof.
  assert (L : forall B (f : K -> K -> option B) x y x' y' b, (forall v, x = Some v -> x' = Some v) -> (forall v, y = Some v -> y' = Some v) -> lift_opt f x y = Some b -> lift_opt f x' y' = Some b).
  { intros B f [x|] [y|] x' y' b H1 H2 E; try discriminate E. rewrite (H1 _ eq_refl), (H2 _ eq_refl). exact E. }
  induction e as [n|a|a IH|a IHa b IHb|a IH|a IH|a IHa b IHb|a IHa b IHb|a IHa b IHb|a IHa b IHb|a IHa b IHb]; intros H v E; cbn [value_of toks] in *; try exact E;
    try (assert (Ha : forall c x, In (ParseSpec.TInv c) (toks [] a) -> m c = Some x -> m' c = Some x) by (intros c x I; apply H; first [exact I|right; exact I|apply in_app_iff; left; exact I|right; apply in_app_iff; left; exact I]));
    try (assert (Hb : forall c x, In (ParseSpec.TInv c) (toks [] b) -> m c = Some x -> m' c = Some x) by (intros c x I; apply H; apply in_app_iff; right; first [exact I|right; exact I]));
    try (eapply L; [exact (IHa Ha)|exact (IHb Hb)|exact E]); try exact (IH Ha v E).
  - apply H; [left; reflexivity|exact E].
  - destruct (value_of m a) as [x|]; [|discriminate E]. rewrite (IHa Ha _ eq_refl). exact E.
  - destruct (value_of m a) as [x|]; [|discriminate E]. rewrite (IH Ha _ eq_refl). exact E.
Qed.
Lemma compute_step (s : ps K) A n t : unbold t = Ok t -> classify t = TExpr -> compute_text (S n) s A t = rmap ANum (py_eval (fun arg => as_element (compute_text n s A arg)) t).
Proof. intros U C. cbn [compute_text]. rewrite U. cbn [rbind]. rewrite C. reflexivity. Qed.
Theorem compute_expr (s : ps K) A f e v u : sum e -> ~ clash (symbols e) -> exact e -> (forall a, e <> Inv a) -> written_as (written e) u -> ~ In 10 u ->
  value_of (at_point s) e = Some v ->
  exists w, compute_text (S (S f)) s A u = Ok (ANum w) /\ to_K w = Ok v /\ (integral e = true -> exists z, w = VInt z).
Proof.
  intros Hs NC X N W NL V. set (oPs := fun arg => as_element (compute_text (S f) s A arg)).
  destruct (eval_ok oPs e Hs NC X v) as (w & E & T & I).
  - apply (value_ext (at_point s)); [|exact V]. intros a x Ia Ma. unfold at_point in Ma. destruct (named a) as [i|] eqn:Na; [|discriminate Ma]. assert (F : Forall tok_ok (toks [] e)) by (apply toks_ok; [constructor|exact Hs]).
    assert (Si := named_shows a i (proj1 (Forall_forall _ _) F _ Ia) Na). unfold ParseEval.invariant, oPs. rewrite (compute_shows s A f i (inv_text a) (inv_text a) Si (in_bold_refl _)).
    destruct (compute s i) as [[y| | |]|]; try discriminate Ma. injection Ma as ->. reflexivity.
  - exists w. split; [|split; [exact T|exact I]]. rewrite compute_step; [|exact (written_thin e u Hs W)|apply (class_expr e); assumption]. fold oPs. rewrite (eval_as oPs e u Hs W), E. reflexivity.
Qed.
Theorem compute_word (s : ps K) A f a v : inv_ok a -> at_point s a = Some v -> compute_text (S f) s A (inv_text a) = Ok (AVal (VS v)).
Proof.
  intros O M. unfold at_point in M. destruct (named a) as [i|] eqn:Na; [|discriminate M]. rewrite (compute_shows s A f i (inv_text a) (inv_text a) (named_shows a i O Na) (in_bold_refl _)).
  destruct (compute s i) as [[y| | |]|]; try discriminate M. injection M as ->. reflexivity.
Qed.
End Value.
