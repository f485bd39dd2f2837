(* Proofs about the substitutions of tools.py. *)
From Coq Require Import List ZArith Bool Lia FinFun.
From Verif Require Import Base Symm Str SubsSpec.
Import ListNotations.
Open Scope Z_scope.

Lemma starts_iff k : forall t, starts k t = true <-> begins k t.
Proof.
  induction k as [|x k IH]; intros t; cbn; [split; [exists t; reflexivity|reflexivity]|]. destruct t as [|y t]; [split; [discriminate|intros [r E]; discriminate]|].
  rewrite andb_true_iff, Z.eqb_eq, IH. split; [intros [-> [r ->]]; exists r; reflexivity|intros [r E]; injection E as -> ->; split; [reflexivity|exists r; reflexivity]].
Qed.
Lemma first_some (d : dict pystr) t k v : first_match d t = Some (k, v) <-> exists pre post, d = pre ++ (k, v) :: post /\ begins k t /\ forall e, In e pre -> ~ begins (fst e) t.
Proof.
  induction d as [|[k' v'] d IH]; cbn; [split; [discriminate|intros ([|] & ? & E & _); discriminate]|]. destruct (starts k' t) eqn:S.
  - split; [intros E; injection E as -> ->; exists [], d; split; [reflexivity|]; split; [apply starts_iff, S|intros e []]|].
    intros (pre & post & E & B & N). destruct pre as [|e pre]; [cbn in E; congruence|]. injection E as <- E. exfalso. apply (N (k', v')); [left; reflexivity|apply starts_iff, S].
  - rewrite IH. split.
    + intros (pre & post & -> & B & N). exists ((k', v') :: pre), post. split; [reflexivity|]. split; [exact B|]. intros e [<-|I]; [cbn; rewrite <- starts_iff; congruence|apply N, I].
    + intros (pre & post & E & B & N). destruct pre as [|e pre]; [cbn in E; injection E as -> -> ->; apply starts_iff in B; congruence|]. injection E as <- E. exists pre, post. split; [exact E|]. split; [exact B|]. intros e I. apply N. right. exact I.
Qed.
Lemma first_none (d : dict pystr) t : first_match d t = None <-> forall e, In e d -> ~ begins (fst e) t.
Proof.
  induction d as [|[k v] d IH]; cbn; [split; [intros _ e []|reflexivity]|]. destruct (starts k t) eqn:S.
  - split; [discriminate|]. intros H. exfalso. apply (H (k, v)); [left; reflexivity|apply starts_iff, S].
  - rewrite IH. split; [intros H e [<-|I]; [cbn; rewrite <- starts_iff; congruence|apply H, I]|intros H e I; apply H; right; exact I].
Qed.
Lemma scan_skips d k : forall t, subs_scan d (length k) (k ++ t) = subs_scan d 0 t.
Proof. induction k as [|c k IH]; intros t; cbn; [destruct t; reflexivity|apply IH]. Qed.
Lemma scan_key d k v t : k <> [] -> first_match d (k ++ t) = Some (k, v) -> subs_scan d 0 (k ++ t) = v ++ subs_scan d 0 t.
Proof. intros N E. destruct k as [|c k]; [congruence|]. cbn [app] in *. cbn [subs_scan]. rewrite E. cbn [length pred]. rewrite scan_skips. reflexivity. Qed.

Lemma scan_replaced (d : dict pystr) : (forall e, In e d -> fst e <> []) -> forall n t, (length t <= n)%nat -> replaced d t (subs_scan d 0 t).
Proof.
  intros NE. induction n as [|n IH]; intros t L.
  - destruct t; [constructor|cbn in L; lia].
  - destruct t as [|c t]; [constructor|]. destruct (first_match d (c :: t)) as [[k v]|] eqn:E.
    + pose proof E as E'. apply first_some in E' as (pre & post & D & [r B] & N).
      assert (NK : k <> []) by (apply (NE (k, v)); rewrite D; apply in_or_app; right; left; reflexivity).
      rewrite B in *. rewrite (scan_key d k v r NK E). apply (replaced_key d pre k v post); auto. apply IH. rewrite app_length in L. destruct k; [congruence|]. cbn in L. lia.
    + cbn [subs_scan]. rewrite E. apply replaced_not; [apply first_none, E|]. apply IH. cbn in L. lia.
Qed.
Lemma replaced_scan (d : dict pystr) t u : replaced d t u -> u = subs_scan d 0 t.
Proof.
  induction 1 as [|pre k v post t u D NK N R IH|c t u N R IH]; [reflexivity| |].
  - rewrite (scan_key d k v t NK); [rewrite <- IH; reflexivity|]. apply first_some. exists pre, post. split; [exact D|]. split; [exists t; reflexivity|exact N].
  - cbn [subs_scan]. rewrite (proj2 (first_none d (c :: t)) N), <- IH. reflexivity.
Qed.
Theorem subs_iff (d : dict pystr) t u : d <> [] -> (forall e, In e d -> fst e <> []) -> (subs_dict t d = Ok u <-> replaced d t u).
Proof.
  intros N NE. unfold subs_dict. replace (forallb _ d) with true.
  - destruct d as [|e d]; [congruence|]. cbn [length Nat.eqb negb andb]. split; [intros E; injection E as <-; apply (scan_replaced _ NE (length t)), le_n|intros R; rewrite (replaced_scan _ _ _ R); reflexivity].
  - symmetry. apply forallb_forall. intros [k v] I. specialize (NE _ I). cbn [fst] in *. destruct k; [congruence|reflexivity].
Qed.
Theorem subs_total (d : dict pystr) t : d <> [] -> (forall e, In e d -> fst e <> []) -> exists u, subs_dict t d = Ok u.
Proof. intros N NE. exists (subs_scan d 0 t). apply (subs_iff d t _ N NE), (scan_replaced d NE (length t)), le_n. Qed.
Theorem subs_empty t : subs_dict t [] = Err KeyError.
Proof. reflexivity. Qed.

(* ---- a key behind one of its beginnings ---- *)
Lemma first_shadow (d1 d2 d3 : dict pystr) k1 v1 k2 v2 t : begins k1 k2 ->
  first_match (d1 ++ (k1, v1) :: d2 ++ (k2, v2) :: d3) t = first_match (d1 ++ (k1, v1) :: d2 ++ d3) t.
Proof.
  intros [r ->]. induction d1 as [|[k v] d1 IH]; cbn [app first_match]; [|rewrite IH; reflexivity]. destruct (starts k1 t) eqn:S; [reflexivity|].
  induction d2 as [|[k v] d2 IH]; cbn [app first_match]; [|rewrite IH; reflexivity]. destruct (starts (k1 ++ r) t) eqn:S2; [|reflexivity].
  apply starts_iff in S2 as [q ->]. assert (starts k1 ((k1 ++ r) ++ q) = true) by (apply starts_iff; exists (r ++ q); rewrite app_assoc; reflexivity). congruence.
Qed.
Lemma scan_ext (d d' : dict pystr) : (forall t, first_match d t = first_match d' t) -> forall t n, subs_scan d n t = subs_scan d' n t.
Proof. intros H. induction t as [|c t IH]; intros n; [reflexivity|]. cbn [subs_scan]. destruct n; [rewrite H; destruct (first_match d' (c :: t)) as [[k v]|]; rewrite IH; reflexivity|apply IH]. Qed.
Theorem subs_shadow (d1 d2 d3 : dict pystr) k1 v1 k2 v2 t : begins k1 k2 ->
  subs_dict t (d1 ++ (k1, v1) :: d2 ++ (k2, v2) :: d3) = subs_dict t (d1 ++ (k1, v1) :: d2 ++ d3).
Proof.
  intros B. unfold subs_dict. rewrite (scan_ext _ _ (fun t => first_shadow d1 d2 d3 k1 v1 k2 v2 t B)). rewrite !forallb_app. cbn [forallb fst]. rewrite !forallb_app. cbn [forallb fst].
  assert (E : negb (length k1 =? 0)%nat = true -> negb (length k2 =? 0)%nat = true) by (destruct B as [r ->]; rewrite app_length; destruct k1; cbn; congruence).
  destruct (negb (length k1 =? 0)%nat) eqn:E1; [rewrite E by reflexivity|cbn [andb]; rewrite !andb_false_r; reflexivity].
  replace (negb (length (d1 ++ (k1, v1) :: d2 ++ (k2, v2) :: d3) =? 0)%nat) with true by (destruct d1; reflexivity). replace (negb (length (d1 ++ (k1, v1) :: d2 ++ d3) =? 0)%nat) with true by (destruct d1; reflexivity). reflexivity.
Qed.

(* ---- single characters ---- *)
Definition singles (l : list (Z * Z)) : dict pystr := map (fun kv => ([fst kv], [snd kv])) l.
Fixpoint look (l : list (Z * Z)) (c : Z) : Z := match l with [] => c | (k, v) :: l' => if c =? k then v else look l' c end.
Lemma first_single l c t : first_match (singles l) (c :: t) = (if existsb (fun kv => c =? fst kv) l then Some ([c], [look l c]) else None).
Proof.
  induction l as [|[k v] l IH]; [reflexivity|]. cbn [singles map fst snd first_match starts existsb look]. fold (singles l). rewrite (Z.eqb_sym k c). destruct (Z.eqb_spec c k) as [->|N]; [reflexivity|].
  cbn [andb orb]. rewrite IH. reflexivity.
Qed.
Lemma look_none l c : existsb (fun kv => c =? fst kv) l = false -> look l c = c.
Proof. induction l as [|[k v] l IH]; [reflexivity|]. cbn. destruct (c =? k); [discriminate|exact IH]. Qed.
Lemma scan_single l t : subs_scan (singles l) 0 t = map (look l) t.
Proof.
  induction t as [|c t IH]; [reflexivity|]. cbn [subs_scan map]. rewrite first_single. destruct (existsb _ l) eqn:E; [cbn [length pred app]; rewrite IH; reflexivity|].
  rewrite IH, (look_none _ _ E). reflexivity.
Qed.
Lemma set_new (k : pystr) (v : pystr) d : (forall e, In e d -> fst e <> k) -> dict_set k v d = d ++ [(k, v)].
Proof.
  induction d as [|[k' v'] d IH]; intros H; [reflexivity|]. cbn. replace (str_eqb k k') with false.
  - rewrite IH; [reflexivity|]. intros e I. apply H. right. exact I.
  - symmetry. apply not_true_iff_false. intros E. apply (H (k', v')); [left; reflexivity|]. cbn. clear -E. revert k' E. induction k as [|x k IH]; intros [|y k'] E; try discriminate; [reflexivity|]. cbn in E. apply andb_true_iff in E as [E1 E2]. apply Z.eqb_eq in E1. f_equal; [congruence|apply IH, E2].
Qed.
Lemma update_new (l d : dict pystr) : NoDup (map fst (d ++ l)) -> dict_update d l = d ++ l.
Proof.
  revert d. induction l as [|[k v] l IH]; intros d N; [cbn; rewrite app_nil_r; reflexivity|]. unfold dict_update. cbn [fold_left fst snd]. fold (dict_update (dict_set k v d) l).
  rewrite map_app in N. cbn in N. rewrite set_new.
  - rewrite IH; [rewrite <- app_assoc; reflexivity|]. rewrite <- app_assoc, map_app. exact N.
  - intros e I E. apply NoDup_remove_2 in N. apply N. apply in_or_app. left. rewrite <- E. apply in_map, I.
Qed.
Definition flip (l : list (Z * Z)) : list (Z * Z) := map (fun kv => (snd kv, fst kv)) l.
Lemma look_in l k v : NoDup (map fst l) -> In (k, v) l -> look l k = v.
Proof.
  induction l as [|[k' v'] l IH]; intros N I; [destruct I|]. cbn in *. inversion N as [|? ? NI N']; subst. destruct I as [E|I]; [injection E as -> ->; rewrite Z.eqb_refl; reflexivity|].
  destruct (Z.eqb_spec k k') as [->|D]; [exfalso; apply NI; apply (in_map fst) in I; exact I|apply IH; assumption].
Qed.
Lemma look_back l c : NoDup (map fst l) -> NoDup (map snd l) -> (In c (map snd l) -> In c (map fst l)) -> look (flip l) (look l c) = c.
Proof.
  intros N1 N2 H. assert (NF : NoDup (map fst (flip l))) by (unfold flip; rewrite map_map; exact N2).
  destruct (existsb (fun kv => c =? fst kv) l) eqn:E.
  - apply existsb_exists in E as ([k v] & I & E). apply Z.eqb_eq in E. cbn in E. subst k. rewrite (look_in l c v N1 I). apply look_in; [exact NF|]. apply (in_map (fun kv => (snd kv, fst kv)) l (c, v)), I.
  - rewrite (look_none _ _ E). apply look_none. apply not_true_iff_false. intros X. apply existsb_exists in X as ([v k] & I & X). apply Z.eqb_eq in X. cbn in X. subst v.
    unfold flip in I. apply in_map_iff in I as ([k' v'] & Q & I). cbn in Q. injection Q as -> ->. assert (J : In c (map fst l)) by (apply H; apply (in_map snd) in I; exact I).
    apply in_map_iff in J as ([k2 v2] & Q & J). cbn in Q. subst k2. apply not_true_iff_false in E. apply E, existsb_exists. exists (c, v2). split; [exact J|apply Z.eqb_refl].
Qed.
Lemma subs_single l t : l <> [] -> subs_dict t (singles l) = Ok (map (look l) t).
Proof.
  intros N. unfold subs_dict. rewrite scan_single. replace (forallb _ _) with true by (symmetry; apply forallb_forall; intros e I; apply in_map_iff in I as (kv & <- & _); reflexivity).
  destruct l; [congruence|reflexivity].
Qed.
Theorem round_trip l t u : l <> [] -> NoDup (map fst l) -> NoDup (map snd l) -> (forall c, In c t -> In c (map snd l) -> In c (map fst l)) ->
  subs_dict t (map (fun kv => ([fst kv], [snd kv])) l) = Ok u -> rsubs_dict u (map (fun kv => ([fst kv], [snd kv])) l) = Ok t.
Proof.
  intros N N1 N2 H E. fold (singles l) in *. rewrite (subs_single l t N) in E. injection E as <-. unfold rsubs_dict.
  replace (map (fun kv => (snd kv, fst kv)) (singles l)) with (singles (flip l)) by (unfold singles, flip; rewrite !map_map; reflexivity).
  rewrite update_new.
  - cbn [app]. rewrite subs_single by (destruct l; [congruence|discriminate]). f_equal. rewrite map_map. rewrite <- (map_id t) at 2. apply map_ext_in. intros c I. apply look_back; auto.
  - cbn [app]. unfold singles, flip. rewrite !map_map. cbn [fst snd]. replace (map _ l) with (map (fun x => [x]) (map snd l)) by (rewrite map_map; reflexivity). apply Injective_map_NoDup; [intros a b E; congruence|exact N2].
Qed.
