(* The trees of chains with a massive spinor at one end and a massless one at the other. *)
From Coq Require Import Ascii String.
From Coq Require Import List ZArith Bool Lia.
From Verif Require Import Base Fld Phase Compute Str MassesThm Regex RegexThm Masses Parse ParseSpec ParseChars ParseWrap ParseOpen ParseVary Text Tensor TensorText TensorTree TensorChain.
Import ListNotations.
Open Scope Z_scope.

(* what the patterns look for at the beginning and at the end of a sum *)
Definition leads (M : pystr) : Prop := forall r, before_sum (M ++ 124 :: r) = false.
Definition trails (M : pystr) : Prop := forall b, after_sum (rev M ++ 124 :: b) = false.
Definition begins (M : pystr) : Prop := matches mid_begin M.
Lemma two_between bra kt b c i M r : 0 <= i -> between M -> kt <> 40 -> kt <> 41 -> kt <> 43 -> kt <> 45 -> kt <> 124 -> m_two bra kt b (c :: dec i ++ 124 :: M ++ 124 :: r) = None.
Proof.
  intros Hi B K1 K2 K3 K4 K5. unfold m_two. destruct (c =? bra); [|reflexivity]. cbv zeta. split_at i 124 (M ++ 124 :: r) Hi (eq_refl (is_digit 124)). change (124 =? 124) with true. cbv iota.
  destruct (digits_between M r (b_chars M B)) as (x & v & Es & I). destruct (digits (M ++ 124 :: r)) as [|d' l]; [reflexivity|]. rewrite Es. cbn in I. replace (x =? kt) with false; [reflexivity|]. symmetry. apply Z.eqb_neq. lia.
Qed.
Lemma lead_one i : 0 <= i -> exists d ds, dec i = d :: ds /\ is_digit d = true. Proof. intros Hi. assert (D := dec_numeric i Hi). destruct (dec_cons i Hi) as (d & ds & E). rewrite E in *. inversion D; subst. eauto. Qed.
Lemma NB_between b c i M r : 0 <= i -> between M -> m_NB b (c :: dec i ++ 124 :: M ++ 124 :: 64 :: r) = None.
Proof.
  intros Hi B. apply re_none. intros _ p g q E P _. assert (L := fun k u H => par_last _ _ _ P k u H). apply NB_inv in P. destruct P as (c' & n1 & md & n2 & k & -> & _ & N1 & F & N2 & Nk).
  assert (Lk : lasts e_NB k = true) by (apply (L k (c' :: n1 ++ 124 :: md ++ 124 :: n2)); cbn [app]; rewrite <- !app_assoc; cbn [app]; rewrite <- !app_assoc; reflexivity).
  cbn [app] in E. injection E as _ E. assert (X : (dec i ++ 124 :: M ++ [124]) ++ 64 :: r = (n1 ++ 124 :: md ++ 124 :: n2) ++ k :: q).
  { repeat (rewrite <- !app_assoc; cbn [app]). repeat (rewrite <- !app_assoc in E; cbn [app] in E). exact E. }
  assert (Hd : Forall mid (dec i)) by (apply Forall_forall; intros x I; apply (dec_in i x Hi) in I; left; exact I).
  apply (split_first mid) in X; [|unfold mid; cbn; lia|exact Nk| |].
  - destruct X as (_ & <- & _). discriminate Lk.
  - apply Forall_app. split; [exact Hd|]. constructor; [exact M124|]. apply Forall_app. split; [apply between_mid, B|constructor; [exact M124|constructor]].
  - apply Forall_app. split; [apply digs_mid, N1|]. constructor; [exact M124|]. apply Forall_app. split; [exact F|]. constructor; [exact M124|apply digs_mid, N2].
Qed.
Lemma bra_blocked f kets bra b c i M r : 0 <= i -> leads M -> m_bra f kets bra b (c :: dec i ++ 124 :: M ++ 124 :: r) = None.
Proof.
  intros Hi H. unfold m_bra. destruct (f c && out_of_call b); [|reflexivity]. cbv zeta. split_at i 124 (M ++ 124 :: r) Hi (eq_refl (is_digit 124)). rewrite (H r), !andb_false_r. reflexivity.
Qed.
Lemma ket_blocked f bras kt b M r : trails M -> m_ket f bras kt (rev M ++ 124 :: b) (124 :: r) = None.
Proof. intros H. unfold m_ket. rewrite (H b), !andb_false_r. reflexivity. Qed.
Lemma mid_same x md M q r : Forall mid md -> Forall sums M -> ~ mid x -> M ++ 124 :: x :: r = md ++ 124 :: q -> M = md.
Proof.
  revert M. induction md as [|c md IH]; intros M F S N E; destruct M as [|y M]; cbn [app] in E; [reflexivity|injection E as E1 E2..].
  - exfalso. inversion S as [|? ? S1 _]. subst y. cbn in S1. lia.
  - exfalso. subst c. inversion F as [|? ? F1 F2]; subst. destruct md as [|y md]; cbn [app] in E2; injection E2 as E3 E4; [apply N; rewrite E3; exact M124|]. inversion F2 as [|? ? F3 _]; subst. exact (N F3).
  - inversion F; subst. inversion S; subst. f_equal. apply IH; assumption.
Qed.
Lemma no_bar_mid u c md q r : numeric u -> ~ mid c -> Forall mid md -> u ++ c :: r = md ++ 124 :: q -> False.
Proof.
  intros D. revert md. induction D as [|d u H D IH]; intros md N F E; destruct md as [|y md]; cbn [app] in E; injection E as E1 E2.
  - apply N. rewrite E1. exact M124.
  - inversion F; subst. exact (N H1).
  - subst d. discriminate H.
  - inversion F; subst. exact (IH md N H3 E2).
Qed.
Lemma double_stop (ok : pystr -> bool) out b j c r : 0 <= j -> ~ mid c -> m_re ok e_double free_end out b (124 :: dec j ++ c :: r) = None.
Proof.
  intros Hj N. apply re_none. intros _ p g q E P _. unfold e_double in P. apply par_RSeq in P. destruct P as (t & v & ? & ? & -> & _ & P1 & P). apply par_rc in P1. destruct P1 as (-> & _). apply par_RSeq in P. destruct P as (md & v2 & ? & ? & -> & _ & P1 & P). apply mid_end_mid in P1. apply par_rc in P. destruct P as (-> & _).
  cbn [app] in E. injection E as E. rewrite <- app_assoc in E. cbn [app] in E. exact (no_bar_mid _ _ _ _ _ (dec_numeric j Hj) N P1 E).
Qed.
Lemma double_quoted (ok : pystr -> bool) out b M r : between M -> m_re ok e_double free_end out b (124 :: M ++ 124 :: 39 :: 41 :: r) = None.
Proof.
  intros B. apply re_none. intros _ p g q E P Fr. unfold e_double in P. apply par_RSeq in P. destruct P as (t & v & ? & ? & -> & _ & P1 & P). apply par_rc in P1. destruct P1 as (-> & _). apply par_RSeq in P. destruct P as (md & v2 & ? & ? & -> & _ & P1 & P). apply mid_end_mid in P1. apply par_rc in P. destruct P as (-> & _).
  cbn [app] in E. injection E as E. rewrite <- app_assoc in E. cbn [app] in E. assert (X := mid_same 39 md M q (41 :: r) P1 (b_chars M B) ltac:(unfold mid; cbn; lia) E). subst md. apply app_inv_head in E. injection E as <-. discriminate Fr.
Qed.
(* the two open chains are found *)
Lemma open_end_find b c i M r : 0 <= i -> between M -> Parse.cls [10216; 60; 91] c = true -> out_of_call b = true -> free_end (64 :: r) = true ->
  m_open_end b ((c :: dec i ++ 124 :: M ++ [124]) ++ 64 :: r) = Some (length (c :: dec i ++ 124 :: M ++ [124]), call (c :: dec i ++ 124 :: M ++ [124])).
Proof.
  intros Hi B Hc O Fr. set (u := c :: dec i ++ 124 :: M ++ [124]). unfold m_open_end, m_re. rewrite O. set (e := RSeq (RChr (Parse.cls [10216; 60; 91])) _).
  assert (G : matches e u).
  { unfold u, e. change (c :: dec i ++ 124 :: M ++ [124]) with ([c] ++ dec i ++ [124] ++ M ++ [124]). apply m_seq; [apply m_chr, Hc|]. apply m_seq; [apply m_num, Hi|]. apply m_seq; [apply m_chr; reflexivity|]. apply m_seq; [exact (b_reads M B)|apply m_chr; reflexivity]. }
  destruct G as (g & G). apply (tries_complete _ _ _ (64 :: r)) in G. destruct (find _ (tries e (u ++ 64 :: r))) as [(h, q)|] eqn:E.
  - apply find_some in E. destruct E as (I & _). apply tries_sound in I. destruct I as (p & E & P). assert (Q : p = u).
    { unfold e in P. apply par_RSeq in P. destruct P as (t & v & ? & ? & -> & _ & P1 & P). apply par_RChr in P1. destruct P1 as (c' & -> & _). apply par_RSeq in P. destruct P as (n & v2 & ? & ? & -> & _ & P1 & P). apply par_rnum in P1. destruct P1 as (N & _).
      apply par_RSeq in P. destruct P as (t & v3 & ? & ? & -> & _ & P1 & P). apply par_rc in P1. destruct P1 as (-> & _). apply par_RSeq in P. destruct P as (md & v4 & ? & ? & -> & _ & P1 & P). apply mid_end_mid in P1. apply par_rc in P. destruct P as (-> & _).
      unfold u in *. repeat (cbn [app] in E; rewrite <- ?app_assoc in E). injection E as -> E. apply (split_first dig) in E; [|discriminate|discriminate|apply dec_numeric, Hi|apply digs_numeric in N; apply N]. destruct E as (-> & _ & E).
      rewrite (mid_same 64 md M q r P1 (b_chars M B) ltac:(unfold mid; cbn; lia) E). reflexivity. }
    subst p. apply app_inv_head in E. subst q. cbn [snd]. rewrite app_length. replace (length u + length (64%Z :: r) - length (64%Z :: r))%nat with (length u) by lia. rewrite firstn_app'. reflexivity.
  - exfalso. eapply find_none in E; [|exact G]. cbn [snd] in E. rewrite Fr in E. discriminate E.
Qed.
Definition ok_begin (b : pystr) : bool := out_of_call b && not_bra_behind b && after_sum b && not_number_behind 95 b.
Lemma begin_find b M j k r : 0 <= j -> between M -> begins M -> Parse.cls [10217; 93] k = true -> ok_begin b = true -> no_end_call r = true ->
  m_begin b ((124 :: M ++ 124 :: dec j ++ [k]) ++ r) = Some (length (124 :: M ++ 124 :: dec j ++ [k]), call (124 :: M ++ 124 :: dec j ++ [k])).
Proof.
  intros Hj B H Hk O Fr. set (u := 124 :: M ++ 124 :: dec j ++ [k]). unfold m_begin, m_re. unfold ok_begin in O. rewrite O. set (e := RSeq (rc 124) _).
  assert (G : matches e u).
  { unfold u, e. change (124 :: M ++ 124 :: dec j ++ [k]) with ([124] ++ M ++ [124] ++ dec j ++ [k]). apply m_seq; [apply m_chr; reflexivity|]. apply m_seq; [exact H|]. apply m_seq; [apply m_chr; reflexivity|]. apply m_seq; [apply m_num, Hj|apply m_chr, Hk]. }
  destruct G as (g & G). apply (tries_complete _ _ _ r) in G. destruct (find _ (tries e (u ++ r))) as [(h, q)|] eqn:E.
  - apply find_some in E. destruct E as (I & _). apply tries_sound in I. destruct I as (p & E & P). assert (Q : p = u).
    { unfold e in P. apply par_RSeq in P. destruct P as (t & v & ? & ? & -> & _ & P1 & P). apply par_rc in P1. destruct P1 as (-> & _). apply par_RSeq in P. destruct P as (md & v2 & ? & ? & -> & _ & P1 & P). apply mid_begin_mid in P1.
      apply par_RSeq in P. destruct P as (t & v3 & ? & ? & -> & _ & P2 & P). apply par_rc in P2. destruct P2 as (-> & _). apply par_RSeq in P. destruct P as (n & v4 & ? & ? & -> & _ & P2 & P). apply par_rnum in P2. destruct P2 as (N & _). apply par_RChr in P. destruct P as (k' & -> & Kk & _).
      unfold u in *. repeat (cbn [app] in E; rewrite <- ?app_assoc in E). injection E as E.
      assert (X : (M ++ 124 :: dec j) ++ k :: r = (md ++ 124 :: n) ++ k' :: q) by (rewrite <- !app_assoc; cbn [app]; exact E).
      apply (split_first mid) in X.
      - destruct X as (X & <- & _). cbn [app]. f_equal. change (M ++ 124 :: dec j ++ [k]) with (M ++ (124 :: dec j) ++ [k]). change (md ++ 124 :: n ++ [k]) with (md ++ (124 :: n) ++ [k]). rewrite !app_assoc, X. reflexivity.
      - apply cls_in in Hk. unfold mid. cbn in *. lia.
      - apply cls_in in Kk. unfold mid. cbn in *. lia.
      - apply Forall_app. split; [apply between_mid, B|]. constructor; [exact M124|]. apply Forall_forall. intros w I. apply (dec_in j w Hj) in I. left. exact I.
      - apply Forall_app. split; [exact P1|]. constructor; [exact M124|apply digs_mid, N]. }
    subst p. apply app_inv_head in E. subst q. cbn [snd]. rewrite app_length. replace (length u + length r - length r)%nat with (length u) by lia. rewrite firstn_app'. reflexivity.
  - exfalso. eapply find_none in E; [|exact G]. cbn [snd] in E. rewrite Fr in E. discriminate E.
Qed.
Section Steps.
Variables (b r r' M : pystr).
Lemma open_end_step c i : 0 <= i -> between M -> Parse.cls [10216; 60; 91] c = true -> out_of_call b = true -> free_end (64 :: r) = true ->
  re_sub m_open_end (124 :: rev M ++ 124 :: rev (dec i) ++ c :: b) 0 (64 :: r) = r' -> re_sub m_open_end b 0 (c :: dec i ++ 124 :: M ++ 124 :: 64 :: r) = 111 :: 80 :: 115 :: 40 :: 39 :: c :: dec i ++ 124 :: M ++ 124 :: 39 :: 41 :: r'.
Proof.
  intros Hi B Hc O Fr E. replace (c :: dec i ++ 124 :: M ++ 124 :: 64 :: r) with ((c :: dec i ++ 124 :: M ++ [124]) ++ 64 :: r) by (repeat (cbn [app]; rewrite <- ?app_assoc); reflexivity).
  rewrite (hit_eq _ _ _ _ r' (call (c :: dec i ++ 124 :: M ++ [124]))); [| discriminate | apply open_end_find; assumption |].
  - unfold call. change (lit "oPs('") with [111; 80; 115; 40; 39]. change (lit "')") with [39; 41]. repeat (cbn [app]; rewrite <- ?app_assoc). reflexivity.
  - rewrite <- E. f_equal. cbn [rev]. rewrite !rev_app_distr. cbn [rev app]. rewrite rev_app_distr. cbn [rev app]. repeat (rewrite <- ?app_assoc; cbn [app]). reflexivity.
Qed.
Lemma begin_step j k : 0 <= j -> between M -> begins M -> Parse.cls [10217; 93] k = true -> ok_begin b = true -> no_end_call r = true ->
  re_sub m_begin (k :: rev (dec j) ++ 124 :: rev M ++ 124 :: b) 0 r = r' -> re_sub m_begin b 0 (124 :: M ++ 124 :: dec j ++ k :: r) = 111 :: 80 :: 115 :: 40 :: 39 :: 124 :: M ++ 124 :: dec j ++ k :: 39 :: 41 :: r'.
Proof.
  intros Hj B H Hk O Fr E. replace (124 :: M ++ 124 :: dec j ++ k :: r) with ((124 :: M ++ 124 :: dec j ++ [k]) ++ r) by (repeat (cbn [app]; rewrite <- ?app_assoc); reflexivity).
  rewrite (hit_eq _ _ _ _ r' (call (124 :: M ++ 124 :: dec j ++ [k]))); [| discriminate | apply begin_find; assumption |].
  - unfold call. change (lit "oPs('") with [111; 80; 115; 40; 39]. change (lit "')") with [39; 41]. repeat (cbn [app]; rewrite <- ?app_assoc). reflexivity.
  - rewrite <- E. f_equal. cbn [rev]. rewrite !rev_app_distr. cbn [rev app]. rewrite rev_app_distr. cbn [rev app]. repeat (rewrite <- ?app_assoc; cbn [app]). reflexivity.
Qed.
End Steps.
Lemma wl_open_end c i M s : 0 <= i -> between M -> c <> 39 -> wl (39 :: c :: dec i ++ 124 :: M ++ 124 :: 39 :: s) = option_map (cons (KStr (c :: dec i ++ 124 :: M ++ [124]))) (wl s).
Proof.
  intros Hi [F _ _] C. rewrite <- (wl_str (c :: dec i ++ 124 :: M ++ [124])); [repeat (cbn [app]; rewrite <- ?app_assoc); reflexivity|]. intros [E|I]; [congruence|]. apply in_app_iff in I. destruct I as [I|[I|I]]; [apply (dec_in i 39 Hi) in I; lia|discriminate I|].
  apply in_app_iff in I. destruct I as [I|[I|[]]]; [|discriminate I]. apply (proj1 (Forall_forall _ _) F) in I. cbn in I. lia.
Qed.
Lemma wl_open_begin k j M s : 0 <= j -> between M -> k <> 39 -> wl (39 :: 124 :: M ++ 124 :: dec j ++ k :: 39 :: s) = option_map (cons (KStr (124 :: M ++ 124 :: dec j ++ [k]))) (wl s).
Proof.
  intros Hj [F _ _] C. rewrite <- (wl_str (124 :: M ++ 124 :: dec j ++ [k])); [repeat (cbn [app]; rewrite <- ?app_assoc); reflexivity|]. intros [E|I]; [discriminate E|]. apply in_app_iff in I. destruct I as [I|[I|I]]; [|discriminate I|].
  - apply (proj1 (Forall_forall _ _) F) in I. cbn in I. lia.
  - apply in_app_iff in I. destruct I as [I|[I|[]]]; [apply (dec_in j 39 Hj) in I; lia|congruence].
Qed.
(* ---- the walk through such texts ---- *)
Ltac none3 :=
  lazymatch goal with
  | |- m_two _ _ _ (_ :: dec _ ++ 124 :: ?M ++ 124 :: _) = None => apply two_between; [lia|assumption|discriminate..]
  | |- m_NB _ (_ :: dec _ ++ 124 :: ?M ++ 124 :: 64 :: _) = None => apply NB_between; [lia|assumption]
  | |- m_bra _ _ _ _ (_ :: dec _ ++ 124 :: ?M ++ 124 :: _) = None => first [apply bra_held | apply bra_blocked; [lia|assumption]]
  | |- m_ket _ _ _ (rev ?M ++ 124 :: _) (124 :: dec _ ++ _) = None => apply ket_blocked; assumption
  | |- m_double _ (124 :: ?M ++ 124 :: 39 :: 41 :: _) = None => apply double_quoted; assumption
  | |- m_double_dot _ (124 :: ?M ++ 124 :: 39 :: 41 :: _) = None => apply double_quoted; assumption
  | |- m_double _ (124 :: dec _ ++ _) = None => first [apply double_call | apply double_stop; [lia|unfold mid; cbn; lia]]
  | |- m_double_dot _ (124 :: dec _ ++ _) = None => first [apply dot_call | apply double_stop; [lia|unfold mid; cbn; lia]]
  | |- m_double _ (124 :: ?M ++ 124 :: dec _ ++ _) = None => apply double_call
  | |- m_double_dot _ (124 :: ?M ++ 124 :: dec _ ++ _) = None => apply dot_call
  | |- m_spin _ _ _ _ _ (_ :: dec _ ++ 124 :: ?M ++ _) = None => first [apply spin_other; reflexivity | apply spin_mark; side]
  end.
Ltac hit3 :=
  lazymatch goal with
  | |- re_sub m_open_end _ _ (_ :: dec _ ++ 124 :: ?M ++ 124 :: 64 :: _) = _ => apply open_end_step; [lia|assumption|reflexivity|reflexivity|reflexivity|]
  | |- re_sub m_begin _ _ (124 :: ?M ++ 124 :: dec _ ++ _) = _ => apply begin_step; [lia|assumption|assumption|reflexivity|reflexivity|reflexivity|]
  end.
Ltac walk ::=
  idtac; lazymatch goal with
  | |- re_sub _ _ 0 [] = _ => apply nil_eq
  | |- re_sub _ _ 0 (dec _ ++ _) = _ => apply dec_eq; [side|digit1|walk]
  | |- re_sub _ _ 0 (_ :: _) = _ => first [hit3 | apply step_eq; [solve [none3]|] | hit1 | hit2 | apply step_eq; [solve [none2 | none1]|]]; walk
  | |- re_sub _ _ 0 (?M ++ _) = _ => apply mid_eq; [assumption|sums1|walk]
  end.
Definition open_end_of (c i : Z) (M : pystr) : wast := WoPs (c :: dec i ++ 124 :: M ++ [124]).
Definition open_begin_of (M : pystr) (j c : Z) : wast := WoPs (124 :: M ++ 124 :: dec j ++ [c]).
Ltac token ::=
  idtac; lazymatch goal with
  | |- wl [] = _ => apply wl_nil
  | |- wl (32 :: _) = _ => rewrite wl_space; token
  | |- wl (39 :: _ :: dec _ ++ 124 :: 39 :: _) = _ => rewrite wl_quoted by side; apply map_some; token
  | |- wl (39 :: _ :: dec _ ++ 124 :: _) = _ => rewrite wl_open_end by side; apply map_some; token
  | |- wl (39 :: _ :: dec _ ++ _) = _ => rewrite wl_quoted by side; apply map_some; token
  | |- wl (39 :: 124 :: ?M ++ 124 :: dec _ ++ _) = _ => rewrite wl_open_begin by side; apply map_some; token
  | |- wl (48 :: _) = _ => rewrite wl_num by reflexivity; apply map_some; token
  | |- wl (49 :: _) = _ => rewrite wl_num by reflexivity; apply map_some; token
  | |- wl (1013 :: ?r) = _ => change (1013 :: r) with ([1013] ++ r); rewrite (wl_name [] 1013) by reflexivity; apply map_some; token
  | |- wl (111 :: 80 :: 115 :: ?r) = _ => change (111 :: 80 :: 115 :: r) with ((111 :: [80; 115]) ++ r); rewrite (wl_name [80; 115] 111) by reflexivity; apply map_some; token
  | |- wl (110 :: 117 :: 109 :: 112 :: 121 :: ?r) = _ => change (110 :: 117 :: 109 :: 112 :: 121 :: r) with ((110 :: [117; 109; 112; 121]) ++ r); rewrite (wl_name [117; 109; 112; 121] 110) by reflexivity; apply map_some; token
  | |- wl (98 :: 108 :: 111 :: 99 :: 107 :: ?r) = _ => change (98 :: 108 :: 111 :: 99 :: 107 :: r) with ((98 :: [108; 111; 99; 107]) ++ r); rewrite (wl_name [108; 111; 99; 107] 98) by reflexivity; apply map_some; token
  | |- wl (_ :: _) = _ => rewrite wl_op by reflexivity; apply map_some; token
  end.
Ltac tree ::=
  eapply parse_by; [back_text|token|];
  unfold open_end_of, open_begin_of, row_of, col_of, bra_of, ket_of;
  repeat match goal with |- context [KStr (?c :: dec ?i ++ ?r)] => generalize (c :: dec i ++ r); intros ? end;
  repeat match goal with |- context [KStr (?c :: ?M ++ ?r)] => generalize (c :: M ++ r); intros ? end;
  vm_compute; reflexivity.
Section Mixed.
Variables (i j : Z) (M : pystr).
Hypothesis (Hi : 0 <= i) (Hj : 0 <= j) (HM : between M).
Definition mid_D1 : pystr := 10216 :: dec i ++ 124 :: M ++ 124 :: 64 :: 40 :: 98 :: 108 :: 111 :: 99 :: 107 :: 40 :: 91 :: 124 :: dec j ++ 93 :: 44 :: 32 :: 124 :: dec (j + 1) ++ 93 :: 93 :: 41 :: 64 :: 1013 :: 41 :: 91 :: 58 :: 44 :: 32 :: 48 :: 58 :: 49 :: 93 :: [].
Lemma front_D10 l : up l -> front (10216 :: dec i ++ 124 :: M ++ 124 :: dec j ++ l :: 93 :: []) = mid_D1.
Proof. unfold low, up, mid_D1. intros Hl. one Hl; front_text. Qed.
Lemma front_D1 o l : angle o -> up l -> front (o :: dec i ++ 124 :: M ++ 124 :: dec j ++ l :: 93 :: []) = mid_D1.
Proof. intros Ho Hl. rewrite <- (front_D10 l) by assumption. apply front_norm; unfold angle, shut, low, up in *; one Ho; one Hl; solve [texts|normal; reflexivity]. Qed.
Lemma tree_D1 : leads M -> wast_parse (back mid_D1) = Ok (WBin BMat (open_end_of 10216 i M) (col_of WEps j 93)).
Proof. intros. unfold mid_D1. tree. Qed.
Definition mid_D2 : pystr := 40 :: 1013 :: 64 :: 98 :: 108 :: 111 :: 99 :: 107 :: 40 :: 91 :: 91 :: 10216 :: dec i ++ 124 :: 93 :: 44 :: 32 :: 91 :: 10216 :: dec (i + 1) ++ 124 :: 93 :: 93 :: 41 :: 41 :: 91 :: 48 :: 58 :: 49 :: 44 :: 32 :: 58 :: 93 :: 64 :: 124 :: M ++ 124 :: dec j ++ 93 :: [].
Lemma front_D20 k : low k -> front (10216 :: dec i ++ k :: 124 :: M ++ 124 :: dec j ++ 93 :: []) = mid_D2.
Proof. unfold low, up, mid_D2. intros Hk. one Hk; front_text. Qed.
Lemma front_D2 o k : angle o -> low k -> front (o :: dec i ++ k :: 124 :: M ++ 124 :: dec j ++ 93 :: []) = mid_D2.
Proof. intros Ho Hk. rewrite <- (front_D20 k) by assumption. apply front_norm; unfold angle, shut, low, up in *; one Ho; one Hk; solve [texts|normal; reflexivity]. Qed.
Lemma tree_D2 : trails M -> begins M -> wast_parse (back mid_D2) = Ok (WBin BMat (row_of 10216 WEps i) (open_begin_of M j 93)).
Proof. intros. unfold mid_D2. tree. Qed.
Definition mid_D3 : pystr := 40 :: 45 :: 1013 :: 64 :: 98 :: 108 :: 111 :: 99 :: 107 :: 40 :: 91 :: 91 :: 91 :: dec i ++ 124 :: 93 :: 44 :: 32 :: 91 :: 91 :: dec (i + 1) ++ 124 :: 93 :: 93 :: 41 :: 41 :: 91 :: 48 :: 58 :: 49 :: 44 :: 32 :: 58 :: 93 :: 64 :: 124 :: M ++ 124 :: dec j ++ 10217 :: [].
Lemma front_D30 k : up k -> front (91 :: dec i ++ k :: 124 :: M ++ 124 :: dec j ++ 10217 :: []) = mid_D3.
Proof. unfold low, up, mid_D3. intros Hk. one Hk; front_text. Qed.
Lemma front_D3 c k : shut c -> up k -> front (91 :: dec i ++ k :: 124 :: M ++ 124 :: dec j ++ c :: []) = mid_D3.
Proof. intros Ho Hk. rewrite <- (front_D30 k) by assumption. apply front_norm; unfold angle, shut, low, up in *; one Ho; one Hk; solve [texts|normal; reflexivity]. Qed.
Lemma tree_D3 : trails M -> begins M -> wast_parse (back mid_D3) = Ok (WBin BMat (row_of 91 (WNeg WEps) i) (open_begin_of M j 10217)).
Proof. intros. unfold mid_D3. tree. Qed.
Definition mid_D4 : pystr := 91 :: dec i ++ 124 :: M ++ 124 :: 64 :: 40 :: 98 :: 108 :: 111 :: 99 :: 107 :: 40 :: 91 :: 124 :: dec j ++ 10217 :: 44 :: 32 :: 124 :: dec (j + 1) ++ 10217 :: 93 :: 41 :: 64 :: 45 :: 1013 :: 41 :: 91 :: 58 :: 44 :: 32 :: 48 :: 58 :: 49 :: 93 :: [].
Lemma front_D40 l : low l -> front (91 :: dec i ++ 124 :: M ++ 124 :: dec j ++ l :: 10217 :: []) = mid_D4.
Proof. unfold low, up, mid_D4. intros Hl. one Hl; front_text. Qed.
Lemma front_D4 c l : shut c -> low l -> front (91 :: dec i ++ 124 :: M ++ 124 :: dec j ++ l :: c :: []) = mid_D4.
Proof. intros Ho Hl. rewrite <- (front_D40 l) by assumption. apply front_norm; unfold angle, shut, low, up in *; one Ho; one Hl; solve [texts|normal; reflexivity]. Qed.
Lemma tree_D4 : leads M -> wast_parse (back mid_D4) = Ok (WBin BMat (open_end_of 91 i M) (col_of (WNeg WEps) j 10217)).
Proof. intros. unfold mid_D4. tree. Qed.
End Mixed.
