(* Proofs about SetOne.v, fifth part: the theorems on chains and Mandelstam variables. *)
From Coq Require Import List ZArith Bool Lia Ring Field Permutation.
From Verif Require Import Base Fld Particle ParticleSpec ParticleThm Index IndexThm Phase PhaseSpec PhaseThm
  Arcs ArcsThm Compute ComputeSpec ComputeThm ComputeThm2 ComputeThm3 GramThm DetThm SetOne SetSpec SetThm SetThm2 SetThm3 SetThm4.
Import ListNotations.

Section Chains.
Context {K : Fld}.
Open Scope fld_scope.
Add Field Kset5 : (fth K).
Implicit Types (s : ps K) (r l : Z -> v2 K) (u v w : v2 K) (k : Z) (X : K) (o : obr) (c : cbr) (ms : list (list Z)).

Lemma target_chain s o a ms d c x : c_chain s o a (map ent ms) d c = Ok x -> c_target s (chain_t o a ms d c) = Ok x.
Proof. intros E. unfold chain_t, c_target, compute. rewrite E. reflexivity. Qed.
Lemma target_view s r l o a ms d c : view s r l -> entries_ok s ms -> ms <> [] -> inr s a -> inr s d -> str_ok o ms c ->
  c_target s (chain_t o a ms d c) = Ok (chv r l o a ms d c).
Proof. intros V H N Ha Hd B. apply target_chain, chain_view; auto. apply str_bracket, B. Qed.
Lemma inner_chain cv so s o a ms d c X fx mode : entries_ok s ms ->
  set_inner cv so (chain_t o a ms d c) X fx mode s = set_NB cv so 3 o a ms d c X fx mode s.
Proof.
  intros H. unfold chain_t, set_inner. rewrite (bind_lift _ _ _ _ (labels_ents ms (entries_nonempty s ms H))). reflexivity.
Qed.
Lemma entries_step s s' T ms : step s s' T -> entries_ok s ms -> entries_ok s' ms.
Proof.
  intros [L _] H. revert H. apply Forall_impl. intros m [N H]. split; [exact N|]. intros k Hk. rewrite L. apply H, Hk.
Qed.
Lemma chain_made cv so s s' r' l' o a ms d c X mode T : entries_ok s ms -> ms <> [] -> inr s a -> inr s d -> str_ok o ms c ->
  set_NB cv so 3 o a ms d c X true mode s = (s', Ok tt) -> view s' r' l' -> step s s' T -> total_mom s' = mzero ->
  chv r' l' o a ms d c = X ->
  set_ cv so (chain_t o a ms d c) X true mode s = (s', Ok tt) /\ made s s' (chain_t o a ms d c) X T.
Proof.
  intros H N Ha Hd B E V T' TM C.
  assert (VAL : c_target s' (chain_t o a ms d c) = Ok X).
  { rewrite <- C. apply target_view; auto using (inr_step s s' T). apply (entries_step s s' T); auto. }
  split.
  - apply set_returns; auto. rewrite inner_chain by exact H. exact E. apply (view_fresh _ _ _ V).
  - apply (step_made _ _ _ _ _ _ _ VAL TM V T').
Qed.
Lemma chain_err cv so s s' o a ms d c X mode e : entries_ok s ms ->
  set_NB cv so 3 o a ms d c X true mode s = (s', Err e) -> set_ cv so (chain_t o a ms d c) X true mode s = (s', Err e).
Proof. intros H E. apply set_err. rewrite inner_chain by exact H. exact E. Qed.

(* C35, the head *)
Theorem set_chain_head cv so s o a ms d c X p q rest w : set_like so -> Forall (fun p => fresh p) s ->
  o <> OLt -> c = end_of o (length ms) -> ms <> [] -> entries_ok s ms -> legs_of s [a; d] ->
  ~ In a (concat ms) -> (a <> d \/ Nat.odd (length ms) = true) ->
  free_legs (length s) (a :: concat ms ++ [d]) = p :: q :: rest ->
  c_open_begin s (map ent ms) d c = Ok w ->
  (e0 w <> 0 -> nz (c_S2 s p q) -> exists s', set_ cv so (chain_t o a ms d c) X true 1 s = (s', Ok tt) /\
     made s s' (chain_t o a ms d c) X [a; p; q]) /\
  (e0 w = 0 -> snd (set_ cv so (chain_t o a ms d c) X true 1 s) = Err ZeroDivisionError).
Proof.
  intros SO F No Ec N H Hl Na Hd FL W. pose proof (view_of s F) as V. set (r := rs s) in *. set (l := ls s) in *.
  assert (Ha : inr s a) by (apply Hl; cbn; auto). assert (Hdr : inr s d) by (apply Hl; cbn; auto).
  assert (B : str_ok o ms c) by (split; assumption).
  rewrite (open_begin_view s r l o ms d c V H N Hdr B) in W. injection W as W.
  destruct (free_two _ _ _ _ _ FL) as (Hp & Hq & _).
  destruct (NB_head cv so 2 s r l o a ms d c X p q rest SO V H N Ha Hdr B (conj Na Hd) FL) as [N1 N2]. rewrite W in N1, N2. split.
  - intros NZ (y & Ey & Ny). rewrite (S2_view s r l p q V Hp Hq) in Ey.
    destruct (N2 NZ) as (s' & r' & l' & E & V' & T & TM & C & _); [congruence|]. exists s'.
    apply (chain_made cv so s s' r' l' o a ms d c X 1 _); auto.
  - intros Z. rewrite (chain_err cv so s s o a ms d c X 1 ZeroDivisionError H (N1 Z)). reflexivity.
Qed.
(* the same label at both ends, an even number of entries *)
Theorem set_chain_loop cv so s o a ms X p q rest m pa y : set_like so -> Forall (fun p => fresh p) s ->
  o <> OLt -> ms <> [] -> Nat.even (length ms) = true -> entries_ok s ms -> legs_of s [a] -> ~ In a (concat ms) ->
  free_legs (length s) (a :: concat ms ++ [a]) = p :: q :: rest ->
  middle (oflag o) s (map ent ms) = Ok m -> getitem s a = Ok pa -> (if oflag o then r_d pa else l_d pa) = Some y ->
  quad_lead o m <> 0 -> fsqrt (quad_disc o m (e1 y) X) <> None -> nz (c_S2 s p q) ->
  exists s', set_ cv so (chain_t o a ms a (close_of o)) X true 1 s = (s', Ok tt) /\ made s s' (chain_t o a ms a (close_of o)) X [a; p; q].
Proof.
  intros SO F No N Ev H Hl Na FL M Ga Ea NZ SQ (z & Ez & Nz). pose proof (view_of s F) as V. set (r := rs s) in *. set (l := ls s) in *.
  assert (Ha : inr s a) by (apply Hl; cbn; auto).
  assert (B : str_ok o ms (close_of o)). { split; [exact No|]. unfold end_of. rewrite Ev. reflexivity. }
  rewrite (middle_mprod (oflag o) s (map ent ms) (map (psum r l) ms)) in M.
  2: apply (view_sound s r l V). 2: intros E; apply map_eq_nil in E; auto. 2: apply ents_view; auto.
  injection M as M. fold (quad_mat r l o ms) in M.
  assert (Ey : e1 y = second r l o a). { destruct (V a pa Ga) as (_ & E1 & E2). unfold second. destruct (oflag o); congruence. }
  destruct (free_two _ _ _ _ _ FL) as (Hp & Hq & _). rewrite (S2_view s r l p q V Hp Hq) in Ez.
  rewrite <- M in NZ, SQ. rewrite Ey in SQ.
  destruct (NB_quad cv so 2 s r l o a ms (close_of o) X p q rest SO V H N Ha B Na Ev FL SQ NZ) as (s' & r' & l' & E & V' & T & TM & C & _); [congruence|].
  exists s'. apply (chain_made cv so s s' r' l' o a ms a (close_of o) X 1 _); auto.
Qed.
(* the tail: it is the reversed string that gets the value X *)
Lemma rev_sign_odd n (x : K) : Nat.odd n = true -> rev_sign n x = x.
Proof. intros H. unfold rev_sign. rewrite <- Nat.negb_even in H. apply negb_true_iff in H. rewrite H. reflexivity. Qed.
Lemma rev_sign_even n (x : K) : Nat.even n = true -> rev_sign n x = - x.
Proof. intros H. unfold rev_sign. rewrite H. reflexivity. Qed.
Lemma opp_self (x : K) : x = - x -> x = 0.
Proof.
  intros E. assert (H : 2 * x = 2 * 0). { transitivity (x + x); [ring|]. rewrite E at 1. ring. }
  apply (mul_cancel _ _ _ (f2_nz K) H).
Qed.
Theorem set_chain_tail cv so s o a ms d c X p q rest w : set_like so -> Forall (fun p => fresh p) s ->
  o <> OLt -> c = end_of o (length ms) -> ms <> [] -> entries_ok s ms -> legs_of s [a; d] ->
  In a (concat ms) -> ~ In d (concat ms) ->
  free_legs (length s) (a :: concat ms ++ [d]) = p :: q :: rest ->
  c_open_begin s (map ent (rev ms)) a (close_of o) = Ok w -> e0 w <> 0 -> nz (c_S2 s p q) ->
  exists s', made s s' (chain_t o a ms d c) (rev_sign (length ms) X) [d; p; q] /\
    fst (set_ cv so (chain_t o a ms d c) X true 1 s) = s' /\
    (Nat.odd (length ms) = true \/ X = 0 -> snd (set_ cv so (chain_t o a ms d c) X true 1 s) = Ok tt) /\
    (Nat.even (length ms) = true -> X <> 0 -> snd (set_ cv so (chain_t o a ms d c) X true 1 s) = Err MyException).
Proof.
  intros SO F No Ec N H Hl Ia Id FL W NZ (z & Ez & Nz). pose proof (view_of s F) as V. set (r := rs s) in *. set (l := ls s) in *.
  assert (Ha : inr s a) by (apply Hl; cbn; auto). assert (Hdr : inr s d) by (apply Hl; cbn; auto).
  assert (B : str_ok o ms c) by (split; assumption).
  assert (H' : entries_ok s (rev ms)). { unfold entries_ok in *. rewrite Forall_forall in *. intros m Hm. apply H. apply in_rev, Hm. }
  rewrite (open_begin_view s r l (open_of c) (rev ms) a (close_of o) V H' (rev_nnil _ N) Ha (str_rev _ _ _ B)) in W. injection W as W.
  destruct (free_two _ _ _ _ _ FL) as (Hp & Hq & _). rewrite (S2_view s r l p q V Hp Hq) in Ez.
  destruct (NB_tail cv so 1 s r l o a ms d c X p q rest SO V H N Ha Hdr B Ia Id FL) as [_ N2]. rewrite W in N2.
  destruct (N2 NZ) as (s' & r' & l' & E & V' & T & TM & C); [congruence|].
  assert (C' : chv r' l' o a ms d c = rev_sign (length ms) X).
  { rewrite <- C. unfold rev_sign. destruct (Nat.even (length ms)); [ring|reflexivity]. }
  assert (VAL : c_target s' (chain_t o a ms d c) = Ok (rev_sign (length ms) X)).
  { rewrite <- C'. apply target_view; auto using (inr_step s s' [d; p; q]). apply (entries_step s s' [d; p; q]); auto. }
  assert (IN : set_inner cv so (chain_t o a ms d c) X true 1 s = (s', Ok tt)) by (rewrite inner_chain by exact H; exact E).
  destruct (checks_ok s' TM (view_fresh _ _ _ V')) as [CK OK].
  assert (SET : set_ cv so (chain_t o a ms d c) X true 1 s = (s', if feqb (rev_sign (length ms) X) X then Ok tt else Err MyException)).
  { unfold set_, set_checked. rewrite (bind_ok _ _ _ _ _ IN), bind_get, (bind_lift _ _ _ _ VAL). rewrite CK, OK. cbn [negb].
    rewrite (bind_ok _ _ _ s' tt) by reflexivity. destruct (feqb _ _); reflexivity. }
  exists s'. split; [apply (step_made _ _ _ _ _ _ _ VAL TM V' T)|]. rewrite SET. cbn [fst snd]. split; [reflexivity|]. split.
  - intros D. replace (feqb (rev_sign (length ms) X) X) with true; [reflexivity|]. symmetry. apply feqb_ok.
    destruct D as [D|D]; [apply rev_sign_odd, D|]. rewrite D. unfold rev_sign. destruct (Nat.even _); [ring|reflexivity].
  - intros D NX. destruct (feqb (rev_sign (length ms) X) X) eqn:Q; [|reflexivity]. apply feqb_ok in Q.
    rewrite rev_sign_even in Q by exact D. exfalso. apply NX, opp_self. congruence.
Qed.
(* through a label of the first entry *)
Theorem set_chain_middle cv so s o a m1 b m2 ms d c X mode p q rest : set_like so -> Forall (fun p => fresh p) s ->
  o <> OLt -> c = end_of o (S (length ms)) -> entries_ok s ((m1 ++ b :: m2) :: ms) -> legs_of s [a; d] ->
  ends_unused a ((m1 ++ b :: m2) :: ms) d mode ->
  (forall k, In k m1 -> In k (a :: concat ms ++ [d])) -> ~ In b (a :: m1 ++ m2 ++ concat ms ++ [d]) ->
  free_legs (length s) (a :: concat ((m1 ++ b :: m2) :: ms) ++ [d]) = p :: q :: rest ->
  (if oflag o then first_r s a else first_l s a) <> Some 0 -> nz (bracket s (swap_o o) b (map ent ms) d c) -> nz (c_S2 s p q) ->
  exists s', set_ cv so (chain_t o a ((m1 ++ b :: m2) :: ms) d c) X true mode s = (s', Ok tt) /\
     made s s' (chain_t o a ((m1 ++ b :: m2) :: ms) d c) X [b; p; q].
Proof.
  intros SO F No Ec H Hl EU H1 Nb FL P1 (e & Ee & Ne) (z & Ez & Nz). pose proof (view_of s F) as V. set (r := rs s) in *. set (l := ls s) in *.
  assert (Ha : inr s a) by (apply Hl; cbn; auto). assert (Hdr : inr s d) by (apply Hl; cbn; auto).
  assert (B : str_ok o ((m1 ++ b :: m2) :: ms) c) by (split; assumption).
  assert (Hb : inr s b). { inversion H as [|? ? [_ L] _]. apply L. apply in_app_iff. right. left. reflexivity. }
  assert (H2 : entries_ok s ms) by (inversion H; assumption).
  destruct (free_two _ _ _ _ _ FL) as (Hp & Hq & _). rewrite (S2_view s r l p q V Hp Hq) in Ez.
  rewrite (proj2 (string_view s r l (swap_o o) b ms d c V H2 Hb Hdr (str_tail _ _ _ _ B))) in Ee.
  assert (P2 : pivot r l o a <> 0).
  { unfold pivot. destruct (oflag o); [rewrite (first_r_view s r l a V Ha) in P1|rewrite (first_l_view s r l a V Ha) in P1]; congruence. }
  destruct (NB_middle cv so 2 s r l o a m1 b m2 ms d c X mode p q rest SO V H Ha Hdr B EU H1) as [_ N2]; auto.
  - intros [I|I]; apply Nb; [left; exact I|right]. rewrite !in_app_iff in *. tauto.
  - intros I. apply Nb. right. rewrite !in_app_iff in *. tauto.
  - destruct N2 as (s' & r' & l' & E & V' & T & TM & C); [congruence|exact P2|congruence|].
    exists s'. apply (chain_made cv so s s' r' l' o a _ d c X mode _); auto. discriminate.
Qed.
(* one free leg: the head restores momentum conservation with it *)
Theorem set_chain_one cv so s o a ms d c X p w : set_like so -> Forall (fun p => fresh p) s ->
  o <> OLt -> c = end_of o (length ms) -> ms <> [] -> entries_ok s ms -> legs_of s [a; d] ->
  ~ In a (concat ms) -> a <> d -> free_legs (length s) (a :: concat ms ++ [d]) = [p] ->
  try_flips so (length s) a ms d (seq 0 (length ms)) = Ok None ->
  c_open_begin s (map ent ms) d c = Ok w -> e0 w <> 0 ->
  exists s', fst (set_ cv so (chain_t o a ms d c) X true 1 s) = s' /\
    (snd (set_ cv so (chain_t o a ms d c) X true 1 s) = Err ZeroDivisionError \/
     (snd (set_ cv so (chain_t o a ms d c) X true 1 s) = Ok tt /\ made s s' (chain_t o a ms d c) X [a; p])).
Proof.
  intros SO F No Ec N H Hl Na Nad FL TF W NZ. pose proof (view_of s F) as V. set (r := rs s) in *. set (l := ls s) in *.
  assert (Ha : inr s a) by (apply Hl; cbn; auto). assert (Hdr : inr s d) by (apply Hl; cbn; auto).
  assert (B : str_ok o ms c) by (split; assumption).
  rewrite (open_begin_view s r l o ms d c V H N Hdr B) in W. injection W as W.
  destruct (NB_head_one cv so 2 s r l o a ms d c X p SO V H N Ha Hdr B Na Nad FL TF) as [_ N2]. rewrite W in N2.
  destruct (N2 NZ) as (s1 & r1 & l1 & V1 & T1 & C1 & O1 & Z1 & Z2).
  eexists. split; [reflexivity|]. destruct (feq_dec (brk r1 l1 o p a)) as [Z|Z].
  - left. rewrite (chain_err cv so s s1 o a ms d c X 1 ZeroDivisionError H (Z1 Z)). reflexivity.
  - right. destruct (Z2 Z) as (s' & r' & l' & E & V' & T & TM & C).
    destruct (chain_made cv so s s' r' l' o a ms d c X 1 [a; p] H N Ha Hdr B E V') as [E1 E2]; auto.
    + destruct T as [T1' T2']. split; [exact T1'|]. intros k Hk. apply T2'. intros I. apply Hk. cbn in *. tauto.
    + rewrite E1. split; [reflexivity|exact E2].
Qed.

(* ---- rewriting by momentum conservation ---- *)
Lemma ent_sum m : m <> [] -> exists i m', m = i :: m' /\ ent m = esum i m'.
Proof. destruct m as [|i m']; [congruence|]. intros _. eauto. Qed.
Lemma ent_app m e : m <> [] -> ent (m ++ [e]) = eplus (ent m) (leg e).
Proof.
  destruct m as [|i m]; [congruence|]. intros _. cbn [app ent]. rewrite map_app. reflexivity.
Qed.
Lemma massless_of s k : Forall (fun p => fresh p) s -> inr s k -> massless_leg s k.
Proof.
  intros F H. destruct (view_get s _ _ k (view_of s F) H) as (p & G & (_ & R & _) & _). exists p. auto.
Qed.
Definition extra a ms1 (ms2 : list (list Z)) d : list Z := match ms1, ms2 with [], _ => [a] | _, [] => [d] | _, _ => [] end.
Lemma flip_value s o a ms1 m ms2 d c x : Forall (fun p => fresh p) s -> total_mom s = mzero -> o <> OLt ->
  inr s a -> inr s d -> NoDup m -> m <> [] -> legs_of s m ->
  let alt := free_legs (length s) (m ++ extra a ms1 ms2 d) in
  alt <> [] -> c_chain s o a (map ent (ms1 ++ m :: ms2)) d c = Ok x ->
  c_chain s o a (map ent (ms1 ++ alt :: ms2)) d c = Ok (- x).
Proof.
  intros F TM No Ha Hd ND Nm Hm alt Nalt E. pose proof (view_sound s _ _ (view_of s F)) as S.
  rewrite map_app in *. cbn [map] in *.
  assert (CASE : exists m', NoDup m' /\ legs_of s m' /\ m' <> [] /\ alt = free_legs (length s) m' /\
     c_chain s o a (map ent ms1 ++ ent m' :: map ent ms2) d c = Ok x).
  { assert (Hin : forall e, extra a ms1 ms2 d = [e] -> In e m -> exists m', NoDup m' /\ legs_of s m' /\ m' <> [] /\ alt = free_legs (length s) m' /\
     c_chain s o a (map ent ms1 ++ ent m' :: map ent ms2) d c = Ok x).
    { intros e Ee I. exists m. split; [exact ND|]. split; [exact Hm|]. split; [exact Nm|]. split; [|exact E]. unfold alt. rewrite Ee. apply free_legs_ext. intros k. rewrite in_app_iff. cbn. intuition congruence. }
    assert (Hout : forall e, inr s e -> ~ In e m -> NoDup (m ++ [e]) /\ legs_of s (m ++ [e]) /\ m ++ [e] <> []).
    { intros e He I. split; [|split].
      - apply NoDup_app'; auto; [constructor; auto; constructor|]. intros k Hk [->|[]]. auto.
      - intros k Hk. apply in_app_iff in Hk as [Hk|[<-|[]]]; [apply Hm, Hk|apply He].
      - destruct m; discriminate. }
    unfold extra in Hin. unfold alt, extra. destruct ms1 as [|m0 ms1].
    - destruct (in_dec Z.eq_dec a m) as [I|I]; [apply (Hin a); auto|]. exists (m ++ [a]). destruct (Hout a Ha I) as (A1 & A2 & A3).
      split; [exact A1|]. split; [exact A2|]. split; [exact A3|]. split; [reflexivity|]. rewrite ent_app by exact Nm. cbn [map app] in *.
      apply (chain_first_leg s o a (ent m) (map ent ms2) d c x S (massless_of s a F Ha) E).
    - destruct ms2 as [|m3 ms2].
      + destruct (in_dec Z.eq_dec d m) as [I|I]; [apply (Hin d); auto|]. exists (m ++ [d]). destruct (Hout d Hd I) as (A1 & A2 & A3).
        split; [exact A1|]. split; [exact A2|]. split; [exact A3|]. split; [reflexivity|]. rewrite ent_app by exact Nm. cbn [map] in *.
        apply (chain_last_leg s o a _ (ent m) d c x S No (massless_of s d F Hd) E).
      + exists m. rewrite app_nil_r. split; [exact ND|]. split; [exact Hm|]. split; [exact Nm|]. split; [reflexivity|exact E]. }
  destruct CASE as (m' & ND' & L' & N' & -> & E').
  destruct (ent_sum m' N') as (i & mi & -> & Ei). destruct (ent_sum _ Nalt) as (j & mj & Ej & Ej').
  rewrite Ei in E'. rewrite Ej'. apply (chain_complement s o a _ i mi j mj _ d c x S TM); [|exact E'].
  rewrite <- Ej. apply upto_split; auto.
Qed.
Lemma set_nth_split {A} (m1 : list A) x m2 y : set_nth (length m1) y (m1 ++ x :: m2) = m1 ++ y :: m2.
Proof.
  unfold set_nth. rewrite firstn_app, firstn_all, Nat.sub_diag. cbn [firstn]. rewrite app_nil_r. f_equal. f_equal.
  rewrite skipn_app. rewrite (skipn_all2 m1) by lia. replace (Datatypes.S (length m1) - length m1)%nat with 1%nat by lia. reflexivity.
Qed.
Lemma try_flips_spec so n a ms d is ms' : set_like so -> Forall (fun m => m <> []) ms -> (forall i, In i is -> (i < length ms)%nat) ->
  try_flips so n a ms d is = Ok (Some ms') ->
  exists ms1 m ms2, ms = ms1 ++ m :: ms2 /\ ms' = ms1 ++ free_legs n (m ++ extra a ms1 ms2 d) :: ms2 /\ two_free n a ms' d.
Proof.
  intros SO NE. induction is as [|i is IH]; intros R H; cbn [try_flips] in H; [discriminate|].
  assert (Ri : (i < length ms)%nat) by (apply R; left; reflexivity).
  destruct (nth_split ms [] Ri) as (ms1 & ms2 & Ems & Li).
  set (m := nth i ms []) in *.
  assert (Nm : m <> []) by (rewrite Forall_forall in NE; apply NE, nth_In, Ri).
  assert (Ex : (if Nat.eqb i 0 then m ++ [a] else if Nat.eqb i (length ms - 1) then m ++ [d] else m) = m ++ extra a ms1 ms2 d).
  { rewrite Ems, app_length. cbn [length]. unfold extra. destruct ms1 as [|x ms1]; cbn [length] in Li.
    - subst i. reflexivity.
    - destruct ms2 as [|y ms2]; cbn [length].
      + replace (Nat.eqb i 0) with false by (symmetry; apply Nat.eqb_neq; lia).
        replace (Nat.eqb i _) with true by (symmetry; apply Nat.eqb_eq; cbn; lia). reflexivity.
      + replace (Nat.eqb i 0) with false by (symmetry; apply Nat.eqb_neq; lia).
        replace (Nat.eqb i _) with false by (symmetry; apply Nat.eqb_neq; cbn; lia). rewrite app_nil_r. reflexivity. }
  rewrite Ex in H. rewrite (complementary_free so n (m ++ extra a ms1 ms2 d) SO) in H by (destruct m; [congruence|discriminate]).
  cbn [rbind] in H. set (alt := free_legs n (m ++ extra a ms1 ms2 d)) in *.
  rewrite (complementary_free so n _ SO) in H by discriminate. cbn [rbind] in H.
  assert (Es : set_nth i alt ms = ms1 ++ alt :: ms2) by (rewrite Ems at 1; rewrite <- Li; apply set_nth_split).
  rewrite Es in H.
  destruct (Nat.leb 2 _) eqn:L2.
  - injection H as <-. exists ms1, m, ms2. split; [exact Ems|]. split; [reflexivity|]. apply Nat.leb_le in L2.
    unfold two_free. destruct (free_legs n (a :: concat (ms1 ++ alt :: ms2) ++ [d])) as [|p [|q rest]]; cbn in L2; try lia. eauto.
  - apply IH; auto. intros j Hj. apply R. right. exact Hj.
Qed.
Theorem set_chain_flip cv so s s' o a ms ms' d c X mode T : set_like so -> o <> OLt -> entries_ok s ms -> entries_ok s ms' ->
  Forall (fun m => NoDup m) ms -> legs_of s [a; d] -> c = end_of o (length ms) -> ms <> [] ->
  (length (free_legs (length s) (a :: concat ms ++ [d])) < 2)%nat ->
  try_flips so (length s) a ms d (seq 0 (length ms)) = Ok (Some ms') ->
  set_ cv so (chain_t o a ms' d c) (- X) true mode s = (s', Ok tt) -> made s s' (chain_t o a ms' d c) (- X) T ->
  set_ cv so (chain_t o a ms d c) X true mode s = (s', Ok tt) /\ made s s' (chain_t o a ms d c) X T.
Proof.
  intros SO No H H' ND Hl Ec N FL TF E M.
  destruct (try_flips_spec so (length s) a ms d (seq 0 (length ms)) ms' SO (entries_nonempty s ms H)) as (ms1 & m & ms2 & Ems & Ems' & TW); auto.
  { intros i Hi. apply in_seq in Hi. lia. }
  destruct M as [MV MT MF ML MR].
  assert (inr' : forall k, In k [a; d] -> inr s' k) by (intros k Hk; unfold inr; rewrite ML; apply Hl, Hk).
  assert (Es : step s s' T) by (split; assumption).
  assert (VAL : c_target s' (chain_t o a ms d c) = Ok X).
  { pose proof (chain_view s' _ _ o a ms d c (view_of s' MF) (entries_step s s' T ms Es H) N (inr' a (or_introl eq_refl)) (inr' d (or_intror (or_introl eq_refl))) (str_bracket o ms c (conj No Ec))) as V0.
    set (x := chv _ _ o a ms d c) in *. rewrite (target_chain _ _ _ _ _ _ _ V0). f_equal.
    rewrite Ems in V0. rewrite Forall_forall in ND. assert (Im : In m ms) by (rewrite Ems; apply in_app_iff; right; left; reflexivity).
    unfold entries_ok in H, H'. rewrite Forall_forall in H, H'. destruct (H m Im) as [Nm Lm].
    pose proof (flip_value s' o a ms1 m ms2 d c x MF MT No (inr' a (or_introl eq_refl)) (inr' d (or_intror (or_introl eq_refl))) (ND m Im) Nm) as FV.
    cbv zeta in FV. rewrite ML in FV. rewrite <- Ems' in FV.
    assert (V1 : c_chain s' o a (map ent ms') d c = Ok (- x)).
    { apply FV; auto.
      - intros k Hk. rewrite ML. apply Lm, Hk.
      - refine (proj1 (H' _ _)). rewrite Ems'. apply in_app_iff. right. left. reflexivity. }
    rewrite (target_chain _ _ _ _ _ _ _ V1) in MV. injection MV as MV. transitivity (- (- x)); [ring|]. rewrite MV. ring. }
  split; [|constructor; auto].
  apply set_returns; auto. rewrite inner_chain by exact H.
  apply set_checked_inv in E. destruct E as [E _]. change (set_inner cv so (chain_t o a ms' d c) (- X) true mode s = (s', Ok tt)) in E. rewrite inner_chain in E by exact H'.
  rewrite (set_NB_enough cv so 2 o a ms' d c (- X) mode s SO TW) in E. rewrite <- E.
  cbn [set_NB]. rewrite bind_get.
  rewrite (bind_lift _ _ _ _ (complementary_free so (length s) (a :: concat ms ++ [d]) SO ltac:(discriminate))).
  replace (Nat.ltb (length (free_legs (length s) (a :: concat ms ++ [d]))) 2) with true by (symmetry; apply Nat.ltb_lt; exact FL).
  cbn [andb]. rewrite (bind_lift _ _ _ _ TF). reflexivity.
Qed.

(* ---- Mandelstam variables ---- *)
Lemma det_chain r l i m : mdet (psum r l (i :: m)) = chv r l OAng i [m] i CSq + mdet (psum r l m).
Proof.
  rewrite psum_cons. unfold chv. cbn [map mprod row col oflag]. rewrite mmul_1_r. set (Q := psum r l m). unfold pm, outer, mdet, adj, raise_r.
  cbn [flagm]. unfold adj. unfold_vec. cbn [e0 e1]. ring.
Qed.
Lemma chain_sq_ang r l i m : chv r l OSq i [m] i CAng = chv r l OAng i [m] i CSq.
Proof.
  unfold chv. cbn [map mprod row col oflag]. rewrite !mmul_1_r. set (Q := psum r l m). unfold raise_r.
  cbn [flagm]. unfold adj. unfold_vec. cbn [e0 e1]. ring.
Qed.
Theorem set_S_thm cv so s i js X mode p q rest w : set_like so -> Forall (fun p => fresh p) s ->
  NoDup (i :: js) -> (2 <= length js)%nat -> legs_of s (i :: js) -> mode = 1%Z \/ mode = 2%Z ->
  free_legs (length s) (i :: js) = p :: q :: rest ->
  c_open_begin s [ent js] i (sijk_c mode) = Ok w ->
  (e0 w <> 0 -> nz (c_S2 s p q) -> exists s', set_ cv so (TInv (IS (i :: js))) X true mode s = (s', Ok tt) /\
     made s s' (TInv (IS (i :: js))) X [i; p; q]) /\
  (e0 w = 0 -> snd (set_ cv so (TInv (IS (i :: js))) X true mode s) = Err ZeroDivisionError).
Proof.
  intros SO F ND L2 Hl Md FL W. pose proof (view_of s F) as V. set (r := rs s) in *. set (l := ls s) in *.
  assert (Hi : inr s i) by (apply Hl; left; reflexivity). assert (Ni : ~ In i js) by (inversion ND; assumption).
  assert (Hj : legs_of s js) by (intros k Hk; apply Hl; right; exact Hk).
  assert (Nj : js <> []) by (intros ->; cbn in L2; lia).
  assert (H : entries_ok s [js]) by (constructor; [split; assumption|constructor]).
  assert (B : str_ok (sijk_o mode) [js] (sijk_c mode)). { split; destruct Md as [->| ->]; cbn; congruence. }
  assert (FL' : free_legs (length s) (i :: concat [js] ++ [i]) = p :: q :: rest).
  { rewrite <- FL. apply free_legs_ext. intros k. cbn. rewrite app_nil_r, in_app_iff. cbn. tauto. }
  change [ent js] with (map ent [js]) in W.
  assert (N1 : [js] <> []) by discriminate.
  rewrite (open_begin_view s r l (sijk_o mode) [js] i (sijk_c mode) V H N1 Hi B) in W. injection W as W.
  assert (CH : forall r l, chv r l (sijk_o mode) i [js] i (sijk_c mode) = chv r l OAng i [js] i CSq).
  { intros r0 l0. destruct Md as [->| ->]; cbn; [reflexivity|apply chain_sq_ang]. }
  assert (EQ : set_inner cv so (TInv (IS (i :: js))) X true mode s =
     set_NB cv so 3 (sijk_o mode) i [js] i (sijk_c mode) (X - mdet (psum r l js)) true 1 s).
  { unfold set_inner, set_Sijk. destruct js as [|j [|j' js]]; try (cbn in L2; lia). set (jj := j :: j' :: js) in *.
    rewrite bind_get. rewrite (bind_lift _ _ _ _ (S_view s r l (i :: jj) V Hl ltac:(discriminate))).
    assert (OC : (if Z.eqb mode 1 then ret (OAng, CSq) else if Z.eqb mode 2 then ret (OSq, CAng) else raise OtherException) = @ret (ps K) _ (sijk_o mode, sijk_c mode)).
    { destruct Md as [->| ->]; reflexivity. }
    rewrite OC. rewrite (bind_ok _ _ _ s (sijk_o mode, sijk_c mode)) by reflexivity. cbn [fst snd].
    change [ent jj] with (map ent [jj]).
    rewrite (bind_lift _ _ _ _ (chain_view s r l (sijk_o mode) i [jj] i (sijk_c mode) V H N1 Hi Hi (str_bracket _ _ _ B))).
    rewrite CH, det_chain. f_equal. ring. }
  assert (Ap : apart (sijk_o mode) i [js] i).
  { split; [|right; reflexivity]. cbn. rewrite app_nil_r. exact Ni. }
  destruct (free_two _ _ _ _ _ FL) as (Hp & Hq & _).
  destruct (NB_head cv so 2 s r l (sijk_o mode) i [js] i (sijk_c mode) (X - mdet (psum r l js)) p q rest SO V H N1 Hi Hi B Ap FL') as [S1 S2].
  rewrite W in S1, S2. split.
  - intros NZ (y & Ey & Ny). rewrite (S2_view s r l p q V Hp Hq) in Ey.
    destruct (S2 NZ) as (s' & r' & l' & E & V' & T & TM & C & Kl & Kr & _); [congruence|]. exists s'.
    assert (VAL : c_target s' (TInv (IS (i :: js))) = Ok X).
    { unfold c_target, compute. assert (Hl' : legs_of s' (i :: js)) by (destruct T as [T _]; intros k Hk; rewrite T; apply Hl, Hk).
      rewrite (S_view s' r' l' (i :: js) V' Hl' ltac:(discriminate)). cbn [rmap scalar]. f_equal. rewrite det_chain, <- CH, C.
      rewrite (psum_ext r l r' l' js); [ring| |].
      - intros k Hk. destruct (free_two _ _ _ _ _ FL) as (_ & _ & _ & Ip & Iq). apply Kr; intros ->; [auto|apply Ip; right; auto|apply Iq; right; auto].
      - intros k Hk. apply Kl. intros ->. auto. }
    split; [apply set_returns; auto; [rewrite EQ; exact E|apply (view_fresh _ _ _ V')]|apply (step_made _ _ _ _ _ _ _ VAL TM V' T)].
  - intros Z. rewrite (set_err cv so _ X true mode s s ZeroDivisionError); [reflexivity|]. rewrite EQ. apply S1, Z.
Qed.
(* all legs but one: the invariant is the mass of the remaining leg *)
Theorem S_all_but_one s (m : list Z) p : NoDup m -> m <> [] -> legs_of s m -> free_legs (length s) m = [p] ->
  Forall (fun p => fresh p) s -> total_mom s = mzero -> c_target s (TInv (IS m)) = Ok 0.
Proof.
  intros ND N H FL F TM. destruct m as [|i m]; [congruence|].
  pose proof (upto_split (length s) (i :: m) ND H) as P. rewrite FL in P.
  destruct (s_complement s i m p [] P TM) as (x & E1 & E2).
  unfold c_target, compute. rewrite E1. cbn [rmap scalar]. f_equal.
  destruct (free_one _ _ _ FL) as [Hp _].
  rewrite (S_view s _ _ [p] (view_of s F)) in E2; [|intros k [<-|[]]; exact Hp|discriminate].
  injection E2 as <-. rewrite psum_one. unfold pm, outer, mdet, raise_r. unfold_vec. cbn [e0 e1]. ring.
Qed.
Theorem set_S_two cv so s i j X mode : snd (set_inner cv so (TInv (IS [i; j])) X true mode s) = Ok tt /\
  fst (set_inner cv so (TInv (IS [i; j])) X true mode s) = s.
Proof. split; reflexivity. Qed.
End Chains.
