(* What a construction of Invariants gives after a history of constructions. *)
From Coq Require Import Ascii String.
From Coq Require Import List ZArith Bool Lia Permutation Sorted.
From Verif Require Import Base Str Gen GenSpec GenThm GenThm2 GenThm3 Cache CacheSpec.
Import ListNotations.
Open Scope Z_scope.

Lemma uses_touches c : uses_cache (c_opts c) = true <-> touches (c_n c) c.
Proof. unfold uses_cache, touches. rewrite !andb_true_iff, negb_true_iff. tauto. Qed.
Lemma touches_dec n c : {touches n c} + {~ touches n c}.
Proof.
  destruct (Z.eq_dec (c_n c) n) as [<-|N]; [|right; intros [E _]; contradiction]. destruct (uses_cache (c_opts c)) eqn:E; [left; apply uses_touches, E|right; intros H; apply uses_touches in H; congruence].
Qed.
(* a construction that does not touch n leaves its file alone *)
Lemma init_other d c n : ~ touches n c -> snd (init d c) n = d n.
Proof.
  intros H. unfold init. destruct (uses_cache (c_opts c)) eqn:U; [|reflexivity]. apply uses_touches in U.
  assert (N : c_n c <> n) by (intros E; subst n; contradiction). assert (E : (n =? c_n c) = false) by (apply Z.eqb_neq; congruence).
  destruct (d (c_n c)); [reflexivity|]. destruct (from_scratch _ _ _); cbn [snd]; unfold save; rewrite E; reflexivity.
Qed.
(* and one that does leaves it alone when it is there *)
Lemma init_there d c n sh : d n = Some sh -> snd (init d c) n = Some sh.
Proof.
  intros H. destruct (touches_dec n c) as [T|T]; [|rewrite init_other; assumption]. assert (U := T). destruct U as [E _]. subst n. apply uses_touches in T. unfold init. rewrite T, H. exact H.
Qed.
Lemma after_app d h1 h2 : after d (h1 ++ h2) = after (after d h1) h2.
Proof. apply fold_left_app. Qed.
Lemma after_there h : forall d n sh, d n = Some sh -> after d h n = Some sh.
Proof. induction h as [|c h IH]; intros d n sh H; [exact H|]. apply (IH (snd (init d c))), init_there, H. Qed.
Lemma after_none h : forall d n, (forall c, In c h -> ~ touches n c) -> after d h n = d n.
Proof. induction h as [|c h IH]; intros d n H; [reflexivity|]. change (after d (c :: h)) with (after (snd (init d c)) h). rewrite IH by (intros c' H'; apply H; right; exact H'). apply init_other, H. left; reflexivity. Qed.

(* the shelf that the first construction leaves *)
Definition left_by (c : call) : shelf :=
  match from_scratch (c_env c) (c_n c) (c_opts c) with
  | Err _ => empty_shelf
  | Ok i => fold_left (fun sh f => assign sh f (field i f)) (match c_stop c with None => families | Some k => firstn k families end) empty_shelf
  end.
Lemma init_first d c : touches (c_n c) c -> d (c_n c) = None -> snd (init d c) (c_n c) = Some (left_by c).
Proof.
  intros T E. apply uses_touches in T. unfold init, left_by. rewrite T, E. destruct (from_scratch _ _ _); cbn [snd]; unfold save; rewrite Z.eqb_refl; reflexivity.
Qed.
Lemma after_first n h c : first_touch n h c -> after no_files h n = Some (left_by c).
Proof.
  intros (h1 & h2 & -> & T & H). rewrite after_app. change (after (after no_files h1) (c :: h2)) with (after (snd (init (after no_files h1) c)) h2). apply after_there.
  assert (E := T). destruct E as [E _]. subst n. apply init_first; [exact T|]. rewrite after_none by exact H. reflexivity.
Qed.
Lemma read_full i : read_shelf (fold_left (fun sh f => assign sh f (field i f)) families empty_shelf) = Ok i.
Proof. destruct i. reflexivity. Qed.
Lemma read_left c i : completed c i -> read_shelf (left_by c) = Ok i.
Proof. intros [S E]. unfold left_by. rewrite S, E. apply read_full. Qed.
Lemma read_short c : (c_stop c = None -> exists e, from_scratch (c_env c) (c_n c) (c_opts c) = Err e) -> (forall k, c_stop c = Some k -> (k < 9)%nat) -> read_shelf (left_by c) = Err OtherException.
Proof.
  intros H1 H2. unfold left_by. destruct (from_scratch _ _ _) as [i|e]; [|reflexivity]. destruct (c_stop c) as [k|]; [|destruct (H1 eq_refl) as [e E]; discriminate].
  specialize (H2 k eq_refl). do 9 (destruct k as [|k]; [reflexivity|]). lia.
Qed.
Lemma init_cached d c sh : touches (c_n c) c -> d (c_n c) = Some sh -> init d c = (Done (read_shelf sh), d).
Proof. intros T E. apply uses_touches in T. unfold init. rewrite T, E. reflexivity. Qed.
Lemma init_uncached d c : ~ touches (c_n c) c -> c_stop c = None -> init d c = (Done (from_scratch (c_env c) (c_n c) (c_opts c)), d).
Proof. intros T S. unfold init. rewrite S. destruct (uses_cache (c_opts c)) eqn:U; [apply uses_touches in U; contradiction|reflexivity]. Qed.
Lemma init_new d c : touches (c_n c) c -> c_stop c = None -> d (c_n c) = None -> fst (init d c) = Done (from_scratch (c_env c) (c_n c) (c_opts c)).
Proof. intros T S E. apply uses_touches in T. unfold init. rewrite T, S, E. destruct (from_scratch _ _ _); reflexivity. Qed.

(* ---- the theorems ---- *)
Theorem uncached h c : ~ touches (c_n c) c -> c_stop c = None ->
  after_history h c = Done (from_scratch (c_env c) (c_n c) (c_opts c)) /\ forall h', after_history (h ++ [c]) h' = after_history h h'.
Proof.
  intros T S. split; [unfold after_history; rewrite init_uncached by assumption; reflexivity|]. intros h'. unfold after_history. rewrite after_app. change (after (after no_files h) [c]) with (snd (init (after no_files h) c)). rewrite (init_uncached _ c) by assumption. reflexivity.
Qed.
Theorem first_time h c : touches (c_n c) c -> c_stop c = None -> (forall c', In c' h -> ~ touches (c_n c) c') -> after_history h c = Done (from_scratch (c_env c) (c_n c) (c_opts c)).
Proof. intros T S H. unfold after_history. apply init_new; auto. rewrite after_none by exact H. reflexivity. Qed.
Theorem afterwards h c0 i c : touches (c_n c) c -> first_touch (c_n c) h c0 -> completed c0 i -> after_history h c = Done (Ok i).
Proof. intros T F C. unfold after_history. rewrite (init_cached _ c (left_by c0) T (after_first _ h c0 F)). cbn [fst]. rewrite (read_left c0 i C). reflexivity. Qed.
Theorem poisoned h c0 c : touches (c_n c) c -> first_touch (c_n c) h c0 ->
  (c_stop c0 = None -> exists e, from_scratch (c_env c0) (c_n c0) (c_opts c0) = Err e) -> (forall k, c_stop c0 = Some k -> (k < 9)%nat) -> after_history h c = Done (Err OtherException).
Proof. intros T F H1 H2. unfold after_history. rewrite (init_cached _ c (left_by c0) T (after_first _ h c0 F)). cbn [fst]. rewrite (read_short c0 H1 H2). reflexivity. Qed.
Lemma first_or_none n h : (exists c0, first_touch n h c0) \/ (forall c', In c' h -> ~ touches n c').
Proof.
  induction h as [|c h IH]; [right; intros c []|]. destruct (touches_dec n c) as [T|T].
  - left. exists c, [], h. repeat split; auto; apply T.
  - destruct IH as [(c0 & h1 & h2 & -> & T0 & H)|H]; [left; exists c0, (c :: h1), h2|right].
    + split; [reflexivity|]. split; [exact T0|]. intros c' [<-|H']; auto.
    + intros c' [<-|H']; auto.
Qed.
(* histories of one kind of call: everything is as promised *)
Theorem same_calls n o i : forall h c, c_n c = n -> c_opts c = o -> c_stop c = None -> from_scratch (c_env c) n o = Ok i ->
  (forall c', In c' h -> touches n c' -> c_opts c' = o /\ completed c' i) -> after_history h c = Done (Ok i).
Proof.
  intros h c En Eo Es E H. subst n o. destruct (touches_dec (c_n c) c) as [T|T].
  - destruct (first_or_none (c_n c) h) as [(c0 & F)|N].
    + apply (afterwards h c0 i c T F). destruct F as (h1 & h2 & -> & T0 & _). destruct (H c0 ltac:(apply in_or_app; right; left; reflexivity) T0) as [_ C]. exact C.
    + rewrite first_time by assumption. rewrite E. reflexivity.
  - destruct (uncached h c T Es) as [-> _]. rewrite E. reflexivity.
Qed.

(* ---- set orders ---- *)
Definition scratch_with (g : result (list brk)) (v : env) (n : Z) (o : options) : result invs :=
  rbind (gen_N n 3) (fun three => rbind g (fun four =>
  let three := if o_r3 o then purge3 n three else three in
  rbind (if o_r4 o then purge4 n (o_f4 o) four else Ok four) (fun four =>
  rbind (if (n =? 6) && negb (o_no_hard o) then
               rmap (@concat pystr) (rmapM (fun inv => rmap (fun b : bool => if b then [inv] else []) (e_test v inv)) hard_coded)
             else Ok []) (fun added =>
  Ok {| invs_2 := gen_2 n; invs_3 := map render three ++ added;
        invs_4 := map render four ++ (if n =? 7 then [render (Brk true 1 [[5; 6]; [2; 7]] 1); render (Brk false 1 [[5; 6]; [2; 7]] 1); delta_lit "12|347|56"] else []);
        invs_5 := map render (gen_5 (e_iset v) n); invs_s := gen_s n;
        invs_D := gen_D n ++ (if n =? 6 then [delta_lit "15|26|34"; delta_lit "14|23|56"; delta_lit "13|24|56"] else []);
        invs_O := gen_O n; invs_P := gen_P n; invs_tr5 := gen_tr5 n |})))).
Lemma scratch_eq v n o : from_scratch v n o = scratch_with (gen_4 (e_ord v) n) v n o.
Proof. reflexivity. Qed.
Theorem small_orders v v' n o : n <= 6 -> reorders (e_ord v) -> reorders (e_ord v') -> (forall inv, e_test v inv = e_test v' inv) -> from_scratch v n o = from_scratch v' n o.
Proof.
  intros N R R' T. rewrite !scratch_eq. rewrite !gen_4_small; [|exact N|intros; symmetry; apply Permutation_length, R'|exact N|intros; symmetry; apply Permutation_length, R].
  unfold scratch_with. destruct (gen_N n 3); [|reflexivity]. cbn [rbind]. destruct (if o_r4 o then _ else _); [|reflexivity]. cbn [rbind].
  assert (G5 : gen_5 (e_iset v) n = gen_5 (e_iset v') n) by (unfold gen_5; destruct (Z.geb_spec n 7); [lia|reflexivity]). rewrite G5.
  assert (E : rmapM (fun inv => rmap (fun b : bool => if b then [inv] else []) (e_test v inv)) hard_coded = rmapM (fun inv => rmap (fun b : bool => if b then [inv] else []) (e_test v' inv)) hard_coded).
  { generalize hard_coded. intros l. induction l as [|x l IH]; [reflexivity|]. cbn [rmapM]. rewrite T, IH. reflexivity. }
  rewrite E. reflexivity.
Qed.
(* no exception for up to six legs, with or without the restriction, if the numerical tests raise none *)
Theorem small_ok v n o : n <= 6 -> reorders (e_ord v) -> (o_r4 o = true -> o_f4 o = true) -> (forall inv, exists b, e_test v inv = Ok b) -> exists i, from_scratch v n o = Ok i.
Proof.
  intros N R F T. rewrite scratch_eq, gen_4_small; [|exact N|intros; symmetry; apply Permutation_length, R]. unfold scratch_with. destruct (gen_3_ok n) as (l & -> & _). cbn [rbind].
  assert (E4 : exists four, (if o_r4 o then purge4 n (o_f4 o) (list4 n) else Ok (list4 n)) = Ok four).
  { destruct (o_r4 o); [rewrite F by reflexivity; unfold purge4|]; eauto. }
  destruct E4 as (four & ->). cbn [rbind].
  assert (E : forall l, exists r, rmapM (fun inv => rmap (fun b : bool => if b then [inv] else []) (e_test v inv)) l = Ok r).
  { induction l0 as [|x l0 [r IH]]; [exists []; reflexivity|]. cbn [rmapM]. destruct (T x) as (b & ->). rewrite IH. eexists. reflexivity. }
  destruct (_ && _); [destruct (E hard_coded) as (r & ->)|]; cbn [rmap rbind]; eauto.
Qed.
(* a process in which no set is listed ascending never raises there *)
Theorem unsorted_ok v n o : n <> 6 -> unsorted (e_ord v) -> (o_r4 o = true -> o_f4 o = true) -> exists i, from_scratch v n o = Ok i.
Proof.
  intros N U F. rewrite scratch_eq, gen_4_unsorted by exact U. unfold scratch_with. destruct (gen_3_ok n) as (l & -> & _). cbn [rbind].
  assert (E4 : exists four, (if o_r4 o then purge4 n (o_f4 o) (list4 n) else Ok (list4 n)) = Ok four).
  { destruct (o_r4 o); [rewrite F by reflexivity; unfold purge4|]; eauto. }
  destruct E4 as (four & ->). cbn [rbind]. destruct (Z.eqb_spec n 6); [contradiction|]. cbn [andb rbind]. eauto.
Qed.
Lemma insert_perm rank x l : Permutation (x :: l) (insert rank x l).
Proof. induction l as [|y l IH]; [reflexivity|]. cbn [insert]. destruct (rank x <=? rank y); [reflexivity|]. rewrite perm_swap. constructor. exact IH. Qed.
Lemma by_rank_perm rank l : Permutation l (by_rank rank l).
Proof. induction l as [|x l IH]; [reflexivity|]. cbn. rewrite <- insert_perm. constructor. exact IH. Qed.
Lemma secret_reorders rank iset test : reorders (e_ord (with_secret rank iset test)).
Proof. intros b br l. apply by_rank_perm. Qed.
Lemma insert_descending x l : StronglySorted Z.lt (x :: l) -> forall r, Permutation l r -> StronglySorted (fun a b => b < a) r -> insert Z.opp x r = r ++ [x].
Proof.
  intros S r P D. assert (H : forall y, In y r -> x < y) by (intros y Hy; apply StronglySorted_inv in S as [_ F]; rewrite Forall_forall in F; apply F; eapply Permutation_in; [symmetry; exact P|exact Hy]).
  clear P D. induction r as [|y r IH]; [reflexivity|]. cbn [insert app]. assert (x < y) by (apply H; left; reflexivity). destruct (Z.leb_spec (- x) (- y)); [lia|]. rewrite IH by (intros z Hz; apply H; right; exact Hz). reflexivity.
Qed.
Lemma by_rank_rev l : StronglySorted Z.lt l -> by_rank Z.opp l = rev l.
Proof.
  induction l as [|x l IH]; intros S; [reflexivity|]. assert (S' := S). apply StronglySorted_inv in S' as [S' _]. cbn [by_rank fold_right]. fold (by_rank Z.opp l). rewrite IH by exact S'. cbn [rev].
  apply (insert_descending x l S); [apply Permutation_rev|]. clear IH S. induction l as [|y l IH]; [constructor|]. apply StronglySorted_inv in S' as [S' F]. cbn [rev].
  assert (R := IH S'). assert (G : forall z, In z (rev l) -> y < z) by (intros z Hz; rewrite Forall_forall in F; apply F, in_rev, Hz). clear IH F S'.
  induction (rev l) as [|z r IHr]; [repeat constructor|]. apply StronglySorted_inv in R as [R F]. cbn [app]. constructor; [apply IHr; [exact R|intros w Hw; apply G; right; exact Hw]|].
  apply Forall_app. split; [exact F|]. constructor; [apply G; left; reflexivity|constructor].
Qed.
Lemma opp_unsorted iset test : unsorted (e_ord (with_secret Z.opp iset test)).
Proof.
  intros b br l L S H. cbn in H. rewrite by_rank_rev in H by exact S. destruct l as [|x [|y l]]; cbn in L; try lia.
  apply StronglySorted_inv in S as [_ F]. inversion F as [|? ? Lxy _]; subst. cbn [rev] in H. rewrite <- app_assoc in H. cbn [app] in H.
  induction (rev l) as [|z r IHr]; cbn [app] in H; [apply StronglySorted_inv in H as [_ G]; inversion G; lia|]. apply StronglySorted_inv in H as [H _]. apply IHr, H.
Qed.
