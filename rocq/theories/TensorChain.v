(* The trees of chains with massive spinors at both ends and one sum of momenta between them. *)
From Coq Require Import Ascii String.
From Coq Require Import List ZArith Bool Lia.
From Verif Require Import Base Fld Phase Compute Str MassesThm Regex RegexThm Masses Parse ParseSpec ParseChars ParseWrap ParseOpen ParseVary Text Tensor TensorText TensorTree.
Import ListNotations.
Open Scope Z_scope.

(* the text between the bars *)
Definition sums (c : Z) : Prop := In c [48; 49; 50; 51; 52; 53; 54; 55; 56; 57; 40; 41; 43; 45].
Record between (M : pystr) : Prop := {
  b_chars : Forall sums M;
  b_reads : matches mid_end M;
  b_calm : no_pair is_digit (is_c 40) M /\ no_pair (is_c 41) is_digit M /\ no_pair (is_c 41) (is_c 40) M }.
Lemma sums_mid c : sums c -> mid c. Proof. unfold sums, mid. cbn. lia. Qed.
Lemma mid_eq m b M r r' : between M -> (forall b c s, sums c -> m b (c :: s) = None) -> re_sub m (rev M ++ b) 0 r = r' -> re_sub m b 0 (M ++ r) = M ++ r'.
Proof. intros [F _ _] N <-. apply sub_plain. intros b' c s I. apply N. exact (proj1 (Forall_forall _ _) F c I). Qed.
Lemma only_between L M : forallb (fun c => is_digit c || Parse.cls L c) [40; 41; 43; 45] = true -> between M -> only L M.
Proof.
  intros H [F _ _] c I. apply (proj1 (Forall_forall _ _) F) in I. apply orb_true_iff. cbn in I. rewrite forallb_forall in H.
  repeat (destruct I as [<-|I]; [reflexivity || (apply H; cbn; tauto)|]). destruct I.
Qed.
Lemma norm_between M r : between M -> norm (M ++ r) = M ++ norm r.
Proof.
  intros [F _ _]. induction F as [|c M H F IH]; [reflexivity|]. cbn [app]. rewrite norm_cons, IH. cbn in H. repeat (destruct H as [<-|H]; [reflexivity|]). destruct H.
Qed.
(* after the digits of such a text there is no bracket and no index *)
Lemma between_digits M r : Forall sums M -> exists u x v, M ++ 124 :: r = u ++ x :: v /\ numeric u /\ In x [40; 41; 43; 45; 124].
Proof.
  intros F. induction F as [|c M H F IH].
  - exists [], 124, r. cbn. repeat split; [constructor|tauto].
  - cbn [app]. destruct (is_digit c) eqn:D.
    + destruct IH as (u & x & v & E & N & I). exists (c :: u), x, v. rewrite E. split; [reflexivity|]. split; [constructor; assumption|exact I].
    + exists [], c, (M ++ 124 :: r). split; [reflexivity|]. split; [constructor|]. cbn in H. repeat (destruct H as [<-|H]; [cbn in D; first [discriminate D|cbn; tauto]|]). destruct H.
Qed.
Lemma digits_between M r : Forall sums M -> exists x v, skipn (length (digits (M ++ 124 :: r))) (M ++ 124 :: r) = x :: v /\ In x [40; 41; 43; 45; 124].
Proof.
  intros F. destruct (between_digits M r F) as (u & x & v & -> & N & I). exists x, v. rewrite digits_app; [|exact N|cbn in I; cbn; unfold is_digit; lia]. rewrite skipn_app'. auto.
Qed.
Lemma spin_between f g h out b c M r : between M -> forallb (fun x => negb (g x)) [40; 41; 43; 45; 124] = true -> m_spin f g h out b (c :: M ++ 124 :: r) = None.
Proof.
  intros [F _ _] G. unfold m_spin. destruct (f c); [|reflexivity]. cbv zeta. destruct (digits_between M r F) as (x & v & E & I). destruct (digits (M ++ 124 :: r)) as [|d ds]; [reflexivity|]. rewrite E.
  rewrite forallb_forall in G. apply G in I. destruct v; [reflexivity|]. destruct (g x); [discriminate I|reflexivity].
Qed.
Lemma ket_between f bras kt b c M r : between M -> forallb (fun x => negb (f x)) [40; 41; 43; 45; 124] = true -> m_ket f bras kt b (c :: M ++ 124 :: r) = None.
Proof.
  intros [F _ _] G. unfold m_ket. destruct (_ && _); [|reflexivity]. cbv zeta. destruct (digits_between M r F) as (x & v & E & I). destruct (digits (M ++ 124 :: r)) as [|d ds]; [reflexivity|]. rewrite E.
  rewrite forallb_forall in G. apply G in I. destruct (f x); [discriminate I|reflexivity].
Qed.
Lemma ats_between b M r : between M -> m_lit (lit "@|@") (lit "@") b (64 :: 124 :: M ++ 124 :: r) = None.
Proof.
  intros [F _ _]. unfold m_lit. change (lit "@|@") with [64; 124; 64]. cbn [starts]. change (64 =? 64) with true. change (124 =? 124) with true. cbn [andb]. destruct F as [|c M H F]; [reflexivity|]. cbn [app]. cbn in H. repeat (destruct H as [<-|H]; [reflexivity|]). destruct H.
Qed.
Lemma between_mid M : between M -> Forall mid M. Proof. intros [F _ _]. eapply Forall_impl; [|exact F]. apply sums_mid. Qed.
Lemma begin_between b M r : between M -> m_begin b (124 :: M ++ 124 :: 64 :: r) = None.
Proof.
  intros B. apply re_none. intros _ p g q E P _. apply par_RSeq in P. destruct P as (t & u & ? & ? & -> & _ & P1 & P). apply par_rc in P1. destruct P1 as (-> & _). apply par_RSeq in P. destruct P as (md & u2 & ? & ? & -> & _ & P1 & P). apply mid_begin_mid in P1.
  apply par_RSeq in P. destruct P as (t & u3 & ? & ? & -> & _ & P2 & P). apply par_rc in P2. destruct P2 as (-> & _). apply par_RSeq in P. destruct P as (n & u4 & ? & ? & -> & _ & P2 & P). apply par_rnum in P2. destruct P2 as (N & _). apply par_RChr in P. destruct P as (k & -> & Kk & _).
  cbn [app] in E. injection E as E. rewrite <- !app_assoc in E. cbn [app] in E. rewrite <- !app_assoc in E. cbn [app] in E.
  assert (X : (M ++ [124]) ++ 64 :: r = (md ++ 124 :: n) ++ k :: q) by (rewrite <- !app_assoc; cbn [app]; exact E). apply (split_first mid) in X.
  - destruct X as (_ & <- & _). discriminate Kk.
  - unfold mid. cbn. lia.
  - apply cls_in in Kk. unfold mid. cbn in *. lia.
  - apply Forall_app. split; [apply between_mid, B|]. constructor; [exact M124|constructor].
  - apply Forall_app. split; [exact P1|]. constructor; [exact M124|]. apply digs_mid, N.
Qed.
(* the middle is found *)
Lemma double_find (ok : pystr -> bool) out b M r : between M -> ok b = true -> free_end (64 :: r) = true ->
  m_re ok e_double free_end out b ((124 :: M ++ [124]) ++ 64 :: r) = Some (length (124 :: M ++ [124]), out (124 :: M ++ [124])).
Proof.
  intros B O Fr. set (u := 124 :: M ++ [124]). assert (G : exists g, par e_double u g).
  { destruct (b_reads M B) as (g & G). eexists. unfold u, e_double. change (124 :: M ++ [124]) with ([124] ++ M ++ [124]). apply par_RSeq. eexists _, _, _, _. split; [reflexivity|]. split; [reflexivity|]. split; [apply par_rc; auto|]. apply par_RSeq. eexists _, _, _, _. split; [reflexivity|]. split; [reflexivity|]. split; [exact G|apply par_rc; auto]. }
  destruct G as (g & G). apply (tries_complete _ _ _ (64 :: r)) in G. unfold m_re. rewrite O. destruct (find _ (tries e_double (u ++ 64 :: r))) as [(h, q)|] eqn:E.
  - apply find_some in E. destruct E as (I & _). apply tries_sound in I. destruct I as (p & E & P). assert (Q : p = u).
    { unfold e_double in P. apply par_RSeq in P. destruct P as (t & v & ? & ? & -> & _ & P1 & P). apply par_rc in P1. destruct P1 as (-> & _). apply par_RSeq in P. destruct P as (md & v2 & ? & ? & -> & _ & P1 & P). apply mid_end_mid in P1. apply par_rc in P. destruct P as (-> & _).
      unfold u in *. cbn [app] in E. injection E as E. rewrite <- !app_assoc in E. cbn [app] in E. cbn [app]. f_equal.
      assert (Lq : exists q', md ++ 124 :: q = (M ++ [124]) ++ 64 :: r) by (exists q; rewrite <- app_assoc; symmetry; exact E). clear Lq.
      assert (X : forall (md M : pystr), Forall mid md -> Forall sums M -> M ++ 124 :: 64 :: r = md ++ 124 :: q -> M = md).
      { clear. induction md as [|c md IH]; intros M F S E; destruct M as [|x M]; cbn [app] in E; [reflexivity|injection E as E1 E2..].
        - exfalso. inversion S as [|? ? S1 _]. subst x. cbn in S1. lia.
        - exfalso. subst c. inversion F as [|? ? F1 F2]; subst. destruct md as [|y md]; cbn [app] in E2; [discriminate E2|]. injection E2 as E3 E4. inversion F2 as [|? ? F3 _]; subst. unfold mid in F3. cbn in F3. lia.
        - inversion F; subst. inversion S; subst. f_equal. apply IH; assumption. }
      rewrite (X md M P1 (b_chars M B) E). reflexivity. }
    subst p. apply app_inv_head in E. subst q. cbn [snd]. rewrite app_length. replace (length u + length (64%Z :: r) - length (64%Z :: r))%nat with (length u) by lia. rewrite firstn_app'. reflexivity.
  - exfalso. eapply find_none in E; [|exact G]. cbn [snd] in E. rewrite Fr in E. discriminate E.
Qed.
Section Steps.
Variables (b r r' M : pystr).
Hypothesis (B : between M).
Lemma double_step : ok_double b = true -> not_behind spinor_behind b = true -> free_end (64 :: r) = true ->
  re_sub m_double (124 :: rev M ++ 124 :: b) 0 (64 :: r) = r' -> re_sub m_double b 0 (124 :: M ++ 124 :: 64 :: r) = 111 :: 80 :: 115 :: 40 :: 39 :: 124 :: M ++ 124 :: 39 :: 41 :: r'.
Proof.
  intros O N Fr E. replace (124 :: M ++ 124 :: 64 :: r) with ((124 :: M ++ [124]) ++ 64 :: r) by (cbn [app]; rewrite <- app_assoc; reflexivity).
  rewrite (hit_eq _ _ _ _ r' (call (124 :: M ++ [124]))); [| discriminate | apply double_find; [exact B|rewrite O, N; reflexivity|exact Fr] |].
  - unfold call. change (lit "oPs('") with [111; 80; 115; 40; 39]. change (lit "')") with [39; 41]. cbn [app]. rewrite <- !app_assoc. cbn [app]. reflexivity.
  - rewrite <- E. f_equal. cbn [rev]. rewrite rev_app_distr. cbn [rev app]. rewrite <- app_assoc. reflexivity.
Qed.
Lemma double_seen : not_behind spinor_behind b = false -> m_double b (124 :: M ++ 124 :: 64 :: r) = None.
Proof. intros N. unfold m_double, m_re. rewrite N, andb_false_r. reflexivity. Qed.
Lemma dot_step : ok_double b = true -> looks (rev spinor_behind) b = true -> free_end (64 :: r) = true ->
  re_sub m_double_dot (124 :: rev M ++ 124 :: b) 0 (64 :: r) = r' ->
  re_sub m_double_dot b 0 (124 :: M ++ 124 :: 64 :: r) = 110 :: 117 :: 109 :: 112 :: 121 :: 46 :: 116 :: 114 :: 97 :: 110 :: 115 :: 112 :: 111 :: 115 :: 101 :: 40 :: 45 :: 1013 :: 32 :: 64 :: 32 :: 111 :: 80 :: 115 :: 40 :: 39 :: 124 :: M ++ 124 :: 39 :: 41 :: 32 :: 64 :: 32 :: 1013 :: 41 :: r'.
Proof.
  intros O N Fr E. replace (124 :: M ++ 124 :: 64 :: r) with ((124 :: M ++ [124]) ++ 64 :: r) by (cbn [app]; rewrite <- app_assoc; reflexivity).
  rewrite (hit_eq _ _ _ _ r' (lit "numpy.transpose(-" ++ 1013 :: lit " @ " ++ call (124 :: M ++ [124]) ++ lit " @ " ++ 1013 :: lit ")")); [| discriminate | apply (double_find (fun b => ok_double b && looks (rev spinor_behind) b)); [exact B|rewrite O, N; reflexivity|exact Fr] |].
  - unfold call. repeat match goal with |- context [lit ?s] => let v := eval vm_compute in (lit s) in change (lit s) with v end. cbn [app]. repeat (rewrite <- !app_assoc; cbn [app]). reflexivity.
  - rewrite <- E. f_equal. cbn [rev]. rewrite rev_app_distr. cbn [rev app]. rewrite <- app_assoc. reflexivity.
Qed.
End Steps.
(* what is behind the middle *)
Lemma behind_angle i b : 0 <= i -> not_behind spinor_behind (64 :: 93 :: 58 :: 32 :: 44 :: 49 :: 58 :: 48 :: 91 :: 41 :: 41 :: 93 :: 93 :: 41 :: 39 :: 124 :: rev (dec i) ++ 10216 :: b) = true.
Proof.
  intros Hi. unfold not_behind. assert (D := dec_numeric i Hi). destruct (dec_cons i Hi) as (d & ds & E). rewrite E in D. rewrite E. clear E. rewrite <- (rev_involutive (d :: ds)) in D. apply Forall_rev in D. rewrite rev_involutive in D. assert (N : rev (d :: ds) <> []) by (cbn; intros X; apply app_eq_nil in X; destruct X; discriminate).
  destruct (rev (d :: ds)) as [|x l]; [congruence|]. inversion D as [|? ? D1 D2]; subst.
  change (rev spinor_behind) with (map is_c [64; 93; 58; 32; 44; 49; 58; 48; 91; 41; 41; 93; 93; 41; 39; 124] ++ [is_digit; is_c 91; is_c 39]). cbn [map app looks].
  rewrite D1. destruct l as [|y l]; cbn [app]; [reflexivity|]. inversion D2 as [|? ? D3 _]; subst. replace (is_c 91 y) with false by (symmetry; apply digit_not; [reflexivity|exact D3]). reflexivity.
Qed.
Lemma behind_square i b : 0 <= i <= 9 -> looks (rev spinor_behind) (64 :: 93 :: 58 :: 32 :: 44 :: 49 :: 58 :: 48 :: 91 :: 41 :: 41 :: 93 :: 93 :: 41 :: 39 :: 124 :: rev (dec i) ++ 91 :: 39 :: b) = true.
Proof. intros Hi. destruct (one_digit i Hi) as (d & -> & D). change (rev spinor_behind) with (map is_c [64; 93; 58; 32; 44; 49; 58; 48; 91; 41; 41; 93; 93; 41; 39; 124] ++ [is_digit; is_c 91; is_c 39]). cbn [map app looks rev]. rewrite D. reflexivity. Qed.
Lemma behind_square' i b : 0 <= i <= 9 -> not_behind spinor_behind (64 :: 93 :: 58 :: 32 :: 44 :: 49 :: 58 :: 48 :: 91 :: 41 :: 41 :: 93 :: 93 :: 41 :: 39 :: 124 :: rev (dec i) ++ 91 :: 39 :: b) = false.
Proof. intros Hi. unfold not_behind. rewrite behind_square by exact Hi. reflexivity. Qed.
(* neighbours *)
Lemma no_pair_app f g u c r : no_pair f g u -> g c = false -> no_pair f g (c :: r) -> no_pair f g (u ++ c :: r).
Proof.
  intros U C R. induction u as [|x u IH]; [exact R|]. destruct U as [U1 U2]. change ((x :: u) ++ c :: r) with (x :: (u ++ c :: r)). split; [|exact (IH U2)]. destruct u as [|y u]; cbn [app]; [rewrite C; apply andb_false_r|exact U1].
Qed.
Lemma calm_out f k M r : between M -> ~ sums k -> is_c k 124 = false -> no_pair f (is_c k) (124 :: r) -> no_pair f (is_c k) (M ++ 124 :: r).
Proof.
  intros [F _ _] N C R. apply no_pair_app; [|exact C|exact R]. clear R. induction F as [|x u H F IH]; [exact I|]. split; [|exact IH]. destruct F as [|y u H2 F]; [apply andb_false_r|]. replace (is_c k y) with false; [apply andb_false_r|]. symmetry. apply Z.eqb_neq. intros ->. exact (N H2).
Qed.
Lemma calm1 M r : between M -> no_pair is_digit (is_c 40) (124 :: r) -> no_pair is_digit (is_c 40) (M ++ 124 :: r).
Proof. intros [_ _ (C & _)] R. apply no_pair_app; [exact C|reflexivity|exact R]. Qed.
Lemma calm2 M r : between M -> no_pair (is_c 41) is_digit (124 :: r) -> no_pair (is_c 41) is_digit (M ++ 124 :: r).
Proof. intros [_ _ (_ & C & _)] R. apply no_pair_app; [exact C|reflexivity|exact R]. Qed.
Lemma calm3 M r : between M -> no_pair (is_c 41) (is_c 40) (124 :: r) -> no_pair (is_c 41) (is_c 40) (M ++ 124 :: r).
Proof. intros [_ _ (_ & _ & C)] R. apply no_pair_app; [exact C|reflexivity|exact R]. Qed.
(* ---- the walk through such texts ---- *)
Lemma wl_middle M s : between M -> wl (39 :: 124 :: M ++ 124 :: 39 :: s) = option_map (cons (KStr (124 :: M ++ [124]))) (wl s).
Proof.
  intros [F _ _]. rewrite <- (wl_str (124 :: M ++ [124])); [cbn [app]; rewrite <- app_assoc; reflexivity|]. intros [E|I]; [discriminate E|]. apply in_app_iff in I. destruct I as [I|[I|[]]]; [|discriminate I]. apply (proj1 (Forall_forall _ _) F) in I. cbn in I. lia.
Qed.
Ltac none2 :=
  lazymatch goal with
  | |- m_spin _ _ _ _ _ (_ :: ?M ++ 124 :: _) = None => first [apply spin_other; reflexivity | apply spin_between; [assumption|reflexivity]]
  | |- m_ket _ _ _ _ (_ :: ?M ++ 124 :: _) = None => first [apply ket_held | apply ket_between; [assumption|reflexivity]]
  | |- m_lit _ _ _ (64 :: 124 :: ?M ++ 124 :: _) = None => apply ats_between; assumption
  | |- m_begin _ (124 :: ?M ++ 124 :: 64 :: _) = None => apply begin_between; assumption
  | |- m_double (_ :: _ :: _ :: _ :: _ :: _ :: _ :: _ :: _ :: _ :: _ :: _ :: _ :: _ :: _ :: _ :: rev (dec _) ++ 91 :: _) (124 :: ?M ++ 124 :: 64 :: _) = None => apply double_seen; apply behind_square'; lia
  end.
Ltac sums1 := let d := fresh in let H := fresh in intros ? d ? H; repeat (destruct H as [<-|H]; [none1|]); destruct H.
Ltac hit2 :=
  lazymatch goal with
  | |- re_sub m_double (_ :: _ :: _ :: _ :: _ :: _ :: _ :: _ :: _ :: _ :: _ :: _ :: _ :: _ :: _ :: _ :: rev (dec _) ++ 10216 :: _) _ (124 :: ?M ++ 124 :: 64 :: _) = _ => apply double_step; [assumption|reflexivity|apply behind_angle; lia|reflexivity|]
  | |- re_sub m_double_dot (_ :: _ :: _ :: _ :: _ :: _ :: _ :: _ :: _ :: _ :: _ :: _ :: _ :: _ :: _ :: _ :: rev (dec _) ++ 91 :: _) _ (124 :: ?M ++ 124 :: 64 :: _) = _ => apply dot_step; [assumption|reflexivity|apply behind_square; lia|reflexivity|]
  end.
Ltac walk ::=
  idtac; lazymatch goal with
  | |- re_sub _ _ 0 [] = _ => apply nil_eq
  | |- re_sub _ _ 0 (dec _ ++ _) = _ => apply dec_eq; [side|digit1|walk]
  | |- re_sub _ _ 0 (_ :: _) = _ => first [hit1 | hit2 | apply step_eq; [solve [none2 | none1]|]]; walk
  | |- re_sub _ _ 0 (?M ++ _) = _ => apply mid_eq; [assumption|sums1|walk]
  end.
Ltac texts ::= repeat first [apply only_nil | apply only_app; [apply only_dec; lia|] | apply only_app; [apply only_between; [reflexivity|assumption]|] | apply only_dec; lia | apply only_cons; [reflexivity|]].
Ltac apart ::=
  first
    [ exact I
    | apply no_pair_cons; [reflexivity|]
    | apply apart_left; [reflexivity|lia|]
    | apply apart_right; [reflexivity|reflexivity|lia|]
    | (apply calm1; [assumption|]) | (apply calm2; [assumption|]) | (apply calm3; [assumption|])
    | (apply calm_out; [assumption|unfold sums; cbn; lia|reflexivity|])
    | (split; [reflexivity|]) ].
Ltac normal ::= repeat first [rewrite norm_nil | rewrite norm_dec by lia | rewrite norm_between by assumption | rewrite norm_cons; match goal with |- context [conv ?c] => let v := eval vm_compute in (conv c) in change (conv c) with v end; cbv beta iota delta [Z.eqb Pos.eqb orb]].
Ltac token ::=
  idtac; lazymatch goal with
  | |- wl [] = _ => apply wl_nil
  | |- wl (32 :: _) = _ => rewrite wl_space; token
  | |- wl (39 :: _ :: dec _ ++ _) = _ => rewrite wl_quoted by side; apply map_some; token
  | |- wl (39 :: 124 :: ?M ++ _) = _ => rewrite wl_middle by assumption; apply map_some; token
  | |- wl (48 :: _) = _ => rewrite wl_num by reflexivity; apply map_some; token
  | |- wl (49 :: _) = _ => rewrite wl_num by reflexivity; apply map_some; token
  | |- wl (1013 :: ?r) = _ => change (1013 :: r) with ([1013] ++ r); rewrite (wl_name [] 1013) by reflexivity; apply map_some; token
  | |- wl (111 :: 80 :: 115 :: ?r) = _ => change (111 :: 80 :: 115 :: r) with ((111 :: [80; 115]) ++ r); rewrite (wl_name [80; 115] 111) by reflexivity; apply map_some; token
  | |- wl (110 :: 117 :: 109 :: 112 :: 121 :: ?r) = _ => change (110 :: 117 :: 109 :: 112 :: 121 :: r) with ((110 :: [117; 109; 112; 121]) ++ r); rewrite (wl_name [117; 109; 112; 121] 110) by reflexivity; apply map_some; token
  | |- wl (98 :: 108 :: 111 :: 99 :: 107 :: ?r) = _ => change (98 :: 108 :: 111 :: 99 :: 107 :: r) with ((98 :: [108; 111; 99; 107]) ++ r); rewrite (wl_name [108; 111; 99; 107] 98) by reflexivity; apply map_some; token
  | |- wl (116 :: 114 :: 97 :: 110 :: 115 :: 112 :: 111 :: 115 :: 101 :: ?r) = _ => change (116 :: 114 :: 97 :: 110 :: 115 :: 112 :: 111 :: 115 :: 101 :: r) with ((116 :: [114; 97; 110; 115; 112; 111; 115; 101]) ++ r); rewrite (wl_name [114; 97; 110; 115; 112; 111; 115; 101] 116) by reflexivity; apply map_some; token
  | |- wl (_ :: _) = _ => rewrite wl_op by reflexivity; apply map_some; token
  end.
(* the middle, and the middle with its indices moved *)
Definition mid_of (M : pystr) : wast := WoPs (124 :: M ++ [124]).
Definition mid_dot (M : pystr) : wast := WNumpy NTranspose (WBin BMat (WBin BMat (WNeg WEps) (mid_of M)) WEps).
Ltac tree ::=
  eapply parse_by; [back_text|token|];
  unfold row_of, col_of, bra_of, ket_of, mid_dot, mid_of;
  repeat match goal with |- context [KStr (?c :: ?x ++ ?r)] => generalize (c :: x ++ r); intros ? end;
  vm_compute; reflexivity.
Section Chain.
Variables (i j : Z) (M : pystr).
Hypothesis (Hi : 0 <= i) (Hj : 0 <= j) (HM : between M).
Definition mid_C1 : pystr := 40 :: 1013 :: 64 :: 98 :: 108 :: 111 :: 99 :: 107 :: 40 :: 91 :: 91 :: 10216 :: dec i ++ 124 :: 93 :: 44 :: 32 :: 91 :: 10216 :: dec (i + 1) ++ 124 :: 93 :: 93 :: 41 :: 41 :: 91 :: 48 :: 58 :: 49 :: 44 :: 32 :: 58 :: 93 :: 64 :: 124 :: M ++ 124 :: 64 :: 40 :: 98 :: 108 :: 111 :: 99 :: 107 :: 40 :: 91 :: 124 :: dec j ++ 93 :: 44 :: 32 :: 124 :: dec (j + 1) ++ 93 :: 93 :: 41 :: 64 :: 1013 :: 41 :: 91 :: 58 :: 44 :: 32 :: 48 :: 58 :: 49 :: 93 :: [].
Lemma front_C10 k l : low k -> up l -> front (10216 :: dec i ++ k :: 124 :: M ++ 124 :: dec j ++ l :: 93 :: []) = mid_C1.
Proof. unfold angle, shut, low, up, mid_C1. intros Hk Hl. one Hk; one Hl; front_text. Qed.
Lemma front_C1 o k l : angle o -> low k -> up l -> front (o :: dec i ++ k :: 124 :: M ++ 124 :: dec j ++ l :: 93 :: []) = mid_C1.
Proof. intros Ho Hk Hl. rewrite <- (front_C10 k l) by assumption. apply front_norm; unfold angle, low, up in *; one Ho; one Hk; one Hl; solve [texts|normal; reflexivity]. Qed.
Lemma tree_C1 : wast_parse (back mid_C1) = Ok (WBin BMat (WBin BMat (row_of 10216 WEps i) (mid_of M)) (col_of WEps j 93)).
Proof. unfold mid_C1. tree. Qed.
Definition mid_C2 : pystr := 40 :: 45 :: 1013 :: 64 :: 98 :: 108 :: 111 :: 99 :: 107 :: 40 :: 91 :: 91 :: 91 :: dec i ++ 124 :: 93 :: 44 :: 32 :: 91 :: 91 :: dec (i + 1) ++ 124 :: 93 :: 93 :: 41 :: 41 :: 91 :: 48 :: 58 :: 49 :: 44 :: 32 :: 58 :: 93 :: 64 :: 124 :: M ++ 124 :: 64 :: 40 :: 98 :: 108 :: 111 :: 99 :: 107 :: 40 :: 91 :: 124 :: dec j ++ 10217 :: 44 :: 32 :: 124 :: dec (j + 1) ++ 10217 :: 93 :: 41 :: 64 :: 45 :: 1013 :: 41 :: 91 :: 58 :: 44 :: 32 :: 48 :: 58 :: 49 :: 93 :: [].
Lemma front_C20 k l : up k -> low l -> front (91 :: dec i ++ k :: 124 :: M ++ 124 :: dec j ++ l :: 10217 :: []) = mid_C2.
Proof. unfold angle, shut, low, up, mid_C2. intros Hk Hl. one Hk; one Hl; front_text. Qed.
Lemma front_C2 c k l : shut c -> up k -> low l -> front (91 :: dec i ++ k :: 124 :: M ++ 124 :: dec j ++ l :: c :: []) = mid_C2.
Proof. intros Hc Hk Hl. rewrite <- (front_C20 k l) by assumption. apply front_norm; unfold shut, low, up in *; one Hc; one Hk; one Hl; solve [texts|normal; reflexivity]. Qed.
Lemma tree_C2 : i + 1 <= 9 -> wast_parse (back mid_C2) = Ok (WBin BMat (WBin BMat (row_of 91 (WNeg WEps) i) (mid_dot M)) (col_of (WNeg WEps) j 10217)).
Proof. intros H9. unfold mid_C2. tree. Qed.
End Chain.
