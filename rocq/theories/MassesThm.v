(* Lemmas about dictionaries, mass aliases and internal masses. *)
From Coq Require Import Ascii String.
From Coq Require Import List ZArith Bool Lia.
From Verif Require Import Base Fld Particle ParticleSpec Index IndexThm Phase PhaseSpec PhaseThm Compute ComputeSpec ComputeThm ComputeThm2 Cluster ClusterSpec ClusterThm Symm SymmSpec SymmThm Str Masses MassesSpec.
Import ListNotations.
Open Scope Z_scope.

Lemma str_eqb_spec a : forall b, reflect (a = b) (str_eqb a b).
Proof.
  induction a as [|x a IH]; intros [|y b]; cbn; try (constructor; congruence).
  destruct (Z.eqb_spec x y) as [->|N]; cbn; [|constructor; congruence]. destruct (IH b) as [->|N]; constructor; congruence.
Qed.
Lemma starts_spec k : forall t, starts k t = true <-> exists r, t = k ++ r.
Proof.
  induction k as [|x k IH]; intros t; cbn; [split; [intros _; exists t; reflexivity|reflexivity]|].
  destruct t as [|y t]; [split; [discriminate|intros (r & E); discriminate]|].
  rewrite andb_true_iff, Z.eqb_eq, IH. split.
  - intros (-> & r & ->). exists r; reflexivity.
  - intros (r & [= -> ->]). split; [reflexivity|exists r; reflexivity].
Qed.
Lemma starts_refl t : starts t t = true. Proof. apply starts_spec. exists []. rewrite app_nil_r. reflexivity. Qed.

Section Dicts.
Context {A : Type}.
Implicit Types (d l : dict A) (k t : pystr).
Lemma dict_get_set k v k' d : dict_get k' (dict_set k v d) = if str_eqb k' k then Some v else dict_get k' d.
Proof.
  induction d as [|[a x] d IH]; cbn.
  - destruct (str_eqb_spec k' k); reflexivity.
  - destruct (str_eqb_spec k a) as [->|N]; cbn; destruct (str_eqb_spec k' a) as [->|N']; try reflexivity.
    + destruct (str_eqb_spec a k) as [->|]; [contradiction|reflexivity].
    + exact IH.
Qed.
Lemma dict_set_keys k v d x : In x (map fst (dict_set k v d)) <-> x = k \/ In x (map fst d).
Proof.
  induction d as [|[a y] d IH]; cbn; [intuition congruence|]. destruct (str_eqb_spec k a) as [->|N]; cbn; [intuition congruence|]. rewrite IH. tauto.
Qed.
Lemma dict_set_NoDup k v d : NoDup (map fst d) -> NoDup (map fst (dict_set k v d)).
Proof.
  induction d as [|[a y] d IH]; cbn; [intros _; constructor; [intros []|constructor]|]. intros ND. apply NoDup_cons_iff in ND as [NI ND].
  destruct (str_eqb_spec k a) as [->|N]; cbn; constructor; try assumption; [|exact (IH ND)]. rewrite dict_set_keys. intros [->|I]; [congruence|contradiction].
Qed.
Lemma dict_update_NoDup l : forall d, NoDup (map fst d) -> NoDup (map fst (dict_update d l)).
Proof. induction l as [|[k v] l IH]; intros d ND; cbn; [assumption|]. apply IH, dict_set_NoDup, ND. Qed.
Lemma fm_set_some k v d t k1 v1 : first_match d t = Some (k1, v1) ->
  first_match (dict_set k v d) t = Some (k1, if str_eqb k k1 then v else v1).
Proof.
  induction d as [|[a x] d IH]; cbn; [discriminate|]. destruct (starts a t) eqn:St.
  - intros [= -> ->]. destruct (str_eqb_spec k k1); cbn; rewrite St; reflexivity.
  - intros E. destruct (str_eqb_spec k a) as [->|N]; cbn; rewrite St; [|exact (IH E)]. rewrite E.
    destruct (str_eqb_spec a k1) as [->|]; [|reflexivity]. exfalso. clear IH.
    induction d as [|[b y] d IH]; cbn in E; [discriminate|]. destruct (starts b t) eqn:Sb; [|exact (IH E)]. congruence.
Qed.
Lemma fm_set_none k v d t : first_match d t = None -> first_match (dict_set k v d) t = if starts k t then Some (k, v) else None.
Proof.
  induction d as [|[a x] d IH]; cbn; [reflexivity|]. destruct (starts a t) eqn:St; [discriminate|]. intros E.
  destruct (str_eqb_spec k a) as [->|N]; cbn; rewrite St; [exact E|exact (IH E)].
Qed.
Lemma fm_update_keep l : forall d t k v, first_match d t = Some (k, v) -> ~ In k (map fst l) -> first_match (dict_update d l) t = Some (k, v).
Proof.
  induction l as [|[a x] l IH]; intros d t k v E NI; cbn; [assumption|]. apply IH; [|intros I; apply NI; right; exact I].
  cbn [fst snd]. rewrite (fm_set_some _ _ _ _ _ _ E). destruct (str_eqb_spec a k) as [->|]; [|reflexivity]. exfalso. apply NI. left; reflexivity.
Qed.
Lemma fm_update_none l : forall d t, NoDup (map fst l) -> first_match d t = None -> first_match (dict_update d l) t = first_match l t.
Proof.
  induction l as [|[a x] l IH]; intros d t ND E; cbn [dict_update fold_left fst snd first_match]; [exact E|].
  cbn in ND. apply NoDup_cons_iff in ND as [NI ND]. pose proof (fm_set_none a x d t E) as H. destruct (starts a t).
  - apply (fm_update_keep l _ _ _ _ H NI).
  - apply (IH _ _ ND H).
Qed.
(* the first key that is t, if no proper prefix of t comes before it *)
Lemma fm_update_exact (good : A -> Prop) t l1 v l2 : forall d,
  (first_match d t = None \/ exists x, first_match d t = Some (t, x) /\ good x) ->
  (forall k x, In (k, x) l1 -> starts k t = true -> k = t) ->
  (forall x, In (t, x) (l1 ++ (t, v) :: l2) -> good x) ->
  exists x, first_match (dict_update d (l1 ++ (t, v) :: l2)) t = Some (t, x) /\ good x.
Proof.
  assert (After : forall l d, (exists x, first_match d t = Some (t, x) /\ good x) -> (forall x, In (t, x) l -> good x) ->
    exists x, first_match (dict_update d l) t = Some (t, x) /\ good x).
  { induction l as [|[a y] l IH]; intros d (x & E & G) Hg; cbn; [eauto|]. apply IH; [|intros z I; apply Hg; right; exact I].
    cbn [fst snd]. rewrite (fm_set_some _ _ _ _ _ _ E). eexists; split; [reflexivity|]. destruct (str_eqb_spec a t) as [->|]; [apply Hg; left; reflexivity|exact G]. }
  induction l1 as [|[a y] l1 IH]; intros d H Hp Hg; cbn [app] in *.
  - cbn [dict_update fold_left fst snd]. apply (After l2); [|intros x I; apply Hg; right; exact I].
    destruct H as [E|(x & E & G)].
    + rewrite (fm_set_none _ _ _ _ E), starts_refl. exists v. split; [reflexivity|]. apply Hg. left; reflexivity.
    + rewrite (fm_set_some _ _ _ _ _ _ E). destruct (str_eqb_spec t t); [|congruence]. exists v. split; [reflexivity|]. apply Hg. left; reflexivity.
  - cbn [dict_update fold_left fst snd]. apply (IH (dict_set a y d)).
    + destruct H as [E|(x & E & G)].
      * rewrite (fm_set_none _ _ _ _ E). destruct (starts a t) eqn:St; [|left; reflexivity]. right. rewrite (Hp a y (or_introl eq_refl) St).
        exists y. split; [reflexivity|]. apply Hg. left. f_equal. exact (Hp a y (or_introl eq_refl) St).
      * right. rewrite (fm_set_some _ _ _ _ _ _ E). eexists; split; [reflexivity|]. destruct (str_eqb_spec a t) as [->|]; [apply Hg; left; reflexivity|exact G].
    + intros k x I. apply (Hp k x). right; exact I.
    + intros x I. apply Hg. right; exact I.
Qed.
Lemma fm_absent l : forall d t, first_match d t = None -> (forall k x, In (k, x) l -> starts k t = false) -> first_match (dict_update d l) t = None.
Proof.
  induction l as [|[a y] l IH]; intros d t E H; cbn [dict_update fold_left fst snd]; [assumption|]. apply IH.
  - rewrite (fm_set_none _ _ _ _ E), (H a y) by (left; reflexivity). reflexivity.
  - intros k x I. apply (H k x). right; exact I.
Qed.
Lemma dict_update_keys l : forall d x, In x (map fst (dict_update d l)) <-> In x (map fst d) \/ In x (map fst l).
Proof.
  induction l as [|[a y] l IH]; intros d x; [cbn; tauto|]. change (dict_update d ((a, y) :: l)) with (dict_update (dict_set a y d) l). rewrite IH, dict_set_keys. cbn. intuition.
Qed.
End Dicts.

Lemma scan_skip d t : subs_scan d (length t) t = [].
Proof. induction t as [|c t IH]; cbn; [reflexivity|exact IH]. Qed.
Lemma scan_all d t v : t <> [] -> first_match d t = Some (t, v) -> subs_scan d 0 t = v.
Proof.
  destruct t as [|c t]; [congruence|]. intros _ E. cbn [subs_scan]. rewrite E. cbn [length pred]. rewrite scan_skip, app_nil_r. reflexivity.
Qed.

(* ---- the rules of cluster ---- *)
Definition pre (us : bool) : pystr := 115 :: if us then [95] else [].
Definition key us (c : list Z) : pystr := pre us ++ concat (map dec c).
Definition items us a (cs : list (list Z)) : dict pystr :=
  combine (map (key us) cs) (map (fun i => (pre us ++ dec i)%list) (map Z.of_nat (seq a (length cs)))).
Lemma rules_eq cs : rules cs = dict_update (dict_update [] (items false 1 cs)) (dict_update [] (items true 1 cs)).
Proof. reflexivity. Qed.
Lemma dec_digit d : 0 <= d <= 9 -> dec d = [48 + d].
Proof. intros R. unfold dec. rewrite str_digit by assumption. reflexivity. Qed.
Lemma key_alias us c : Forall digit_label c -> key us c = alias us c.
Proof.
  intros F. unfold key, alias. change (115 :: (if us then [95] else [])) with (pre us). f_equal. induction F as [|d c R _ IH]; cbn [map concat]; [reflexivity|].
  rewrite dec_digit by (unfold digit_label in R; lia). cbn. f_equal. exact IH.
Qed.
Lemma alias_prefix us c d r : alias us c = alias us d ++ r -> exists r', c = d ++ r'.
Proof.
  unfold alias. rewrite <- app_assoc. intros E. apply app_inv_head in E. revert c E.
  induction d as [|x d IH]; intros c E; [exists c; reflexivity|]. destruct c as [|y c]; [discriminate|]. cbn [map app] in E. pose proof (f_equal (hd 0) E) as Exy. apply (f_equal (@tl Z)) in E. cbn [hd tl] in Exy, E.
  destruct (IH c E) as (r' & ->). exists r'. cbn. f_equal. lia.
Qed.
Lemma alias_inj us c d : alias us c = alias us d -> c = d.
Proof.
  unfold alias. intros E. apply app_inv_head in E. revert d E. induction c as [|x c IH]; intros [|y d] E; try discriminate; [reflexivity|].
  cbn [map app] in E. pose proof (f_equal (hd 0) E) as Exy. apply (f_equal (@tl Z)) in E. cbn [hd tl] in Exy, E. f_equal; [lia|exact (IH d E)].
Qed.
Lemma items_In us cs : forall a k v, In (k, v) (items us a cs) -> exists j c, nth_error cs j = Some c /\ k = key us c /\ v = pre us ++ dec (Z.of_nat (a + j)).
Proof.
  induction cs as [|c cs IH]; intros a k v I; [destruct I|]. cbn [items map length seq combine] in I. destruct I as [[= <- <-]|I].
  - exists 0%nat, c. rewrite Nat.add_0_r. auto.
  - destruct (IH (S a) k v I) as (j & c' & N & E1 & E2). exists (S j), c'. split; [exact N|]. split; [exact E1|]. rewrite E2. do 3 f_equal. lia.
Qed.
Lemma items_split us cs : forall a j c, nth_error cs j = Some c ->
  exists l1 l2, items us a cs = l1 ++ (key us c, pre us ++ dec (Z.of_nat (a + j))) :: l2 /\
    forall k v, In (k, v) l1 -> exists i c', (i < j)%nat /\ nth_error cs i = Some c' /\ k = key us c'.
Proof.
  induction cs as [|x cs IH]; intros a j c N; [destruct j; discriminate|]. destruct j as [|j]; cbn in N.
  - injection N as ->. exists [], (items us (S a) cs). split; [cbn; rewrite Nat.add_0_r; reflexivity|]. intros k v [].
  - destruct (IH (S a) j c N) as (l1 & l2 & E & H). exists ((key us x, pre us ++ dec (Z.of_nat a)) :: l1), l2. split.
    + change (items us a (x :: cs)) with ((key us x, pre us ++ dec (Z.of_nat a)) :: items us (S a) cs). rewrite E. cbn [app]. do 4 f_equal. do 3 f_equal. lia.
    + intros k v [[= <- <-]|I]; [exists 0%nat, x; repeat split; lia|]. destruct (H k v I) as (i & c' & L & N' & E'). exists (S i), c'. repeat split; [lia|exact N'|exact E'].
Qed.
Lemma key_other us c t : c <> [] -> Forall digit_label c -> starts (key us c) (alias (negb us) t) = true -> Forall digit_label t -> False.
Proof.
  intros N F St Ft. rewrite key_alias in St by assumption. apply starts_spec in St as (r & E). destruct c as [|x c]; [congruence|]. apply Forall_cons_iff in F as [R _]. unfold digit_label in R.
  unfold alias in E. destruct us; cbn [negb map app] in E.
  - destruct t as [|y t]; cbn [map app] in E; [discriminate|]. apply (f_equal (fun l => nth 1 l 0)) in E. cbn [nth] in E. apply Forall_cons_iff in Ft as [R' _]. unfold digit_label in R'. lia.
  - apply (f_equal (fun l => nth 1 l 0)) in E. cbn [nth] in E. lia.
Qed.
(* the alias of a corner becomes the alias of the cluster *)
Lemma subs_alias us cs j c : nth_error cs j = Some c -> Forall (fun c => c <> [] /\ Forall digit_label c) cs ->
  (forall i d r, (i < j)%nat -> nth_error cs i = Some d -> c = d ++ r -> r = []) ->
  exists i, nth_error cs i = Some c /\ subs_dict (alias us c) (rules cs) = Ok (pre us ++ dec (Z.of_nat (1 + i))).
Proof.
  intros N F P.
  assert (Fc : forall i d, nth_error cs i = Some d -> d <> [] /\ Forall digit_label d) by (intros i d Nd; exact (proj1 (Forall_forall _ _) F d (nth_error_In _ _ Nd))).
  destruct (Fc j c N) as [Nc Dc].
  set (good := fun v => exists i, nth_error cs i = Some c /\ v = pre us ++ dec (Z.of_nat (1 + i))).
  assert (H : exists x, first_match (dict_update [] (items us 1 cs)) (alias us c) = Some (alias us c, x) /\ good x).
  { destruct (items_split us cs 1 j c N) as (l1 & l2 & E & Hl). rewrite E. rewrite key_alias by assumption.
    apply fm_update_exact; [left; reflexivity| |].
    - intros k x I St. destruct (Hl k x I) as (i & d & L & Nd & ->). destruct (Fc i d Nd) as [_ Dd]. rewrite key_alias in * by assumption.
      apply starts_spec in St as (r & Er). destruct (alias_prefix us c d r Er) as (r' & Er'). pose proof (P i d r' L Nd Er') as ->. rewrite app_nil_r in Er'. congruence.
    - intros x I. assert (I' : In (key us c, x) (items us 1 cs)) by (rewrite E, key_alias by assumption; exact I). destruct (items_In us cs 1 _ _ I') as (i & d & Nd & Ek & ->). exists i. split; [|reflexivity].
      destruct (Fc i d Nd) as [_ Dd]. rewrite !key_alias in Ek by assumption. apply alias_inj in Ek. congruence. }
  assert (O : forall k x, In (k, x) (items (negb us) 1 cs) -> starts k (alias us c) = false).
  { intros k x I. destruct (items_In _ cs 1 _ _ I) as (i & d & Nd & -> & _). destruct (Fc i d Nd) as [Nd' Dd].
    destruct (starts _ _) eqn:St; [|reflexivity]. exfalso. apply (key_other (negb us) d c Nd' Dd); [|assumption]. rewrite negb_involutive. exact St. }
  destruct H as (x & Ex & i & Ni & ->). exists i. split; [exact Ni|].
  assert (R : first_match (rules cs) (alias us c) = Some (alias us c, pre us ++ dec (Z.of_nat (1 + i)))).
  { rewrite rules_eq. destruct us; cbn [negb] in O.
    - rewrite fm_update_none; [exact Ex|apply dict_update_NoDup; constructor|]. apply fm_absent; [reflexivity|exact O].
    - apply fm_update_keep; [exact Ex|]. rewrite dict_update_keys. intros [[]|I]. apply in_map_iff in I as ([k y] & Ek & I). cbn in Ek. subst k.
      pose proof (O _ _ I) as Q. rewrite starts_refl in Q. discriminate. }
  assert (NN : alias us c <> []) by (unfold alias; cbn; discriminate).
  unfold subs_dict. rewrite (scan_all _ _ _ NN R).
  replace (forallb _ (rules cs) && negb (length (rules cs) =? 0)%nat) with true; [reflexivity|]. symmetry. apply andb_true_intro. split.
  - apply forallb_forall. intros [k v] I. cbn [fst].
    assert (I' : In k (map fst (rules cs))) by (apply in_map_iff; exists (k, v); auto). rewrite rules_eq in I'. rewrite !dict_update_keys in I'.
    destruct I' as [[[]|I']|[[]|I']]; apply in_map_iff in I' as ([k' y] & Ek & I'); cbn in Ek; subst k'; destruct (items_In _ cs 1 _ _ I') as (? & ? & _ & -> & _); reflexivity.
  - destruct (rules cs); [discriminate|reflexivity].
Qed.
Lemma match_s_alias us c : c <> [] -> Forall digit_label c -> match_s (alias us c) = Some c.
Proof.
  intros N F. unfold match_s, alias. cbn [app].
  assert (E : opt_underscore ((if us then [95] else []) ++ map (fun d => 48 + d) c) = map (fun d => 48 + d) c).
  { destruct us; [reflexivity|]. cbn [app]. destruct c as [|d c]; [congruence|]. apply Forall_cons_iff in F as [R _]. unfold digit_label in R. cbn [map opt_underscore].
    assert (48 + d <> 95) by lia. destruct (48 + d) as [|q|]; try reflexivity. do 8 (destruct q as [q|q|]; try reflexivity; try congruence). }
  rewrite E. rewrite map_length. destruct c as [|d c]; [congruence|]. cbn [length Nat.eqb negb andb].
  replace (forallb is_digit (map (fun d => 48 + d) (d :: c))) with true.
  - change ((115 =? 115) || (115 =? 83)) with true. cbn [andb]. f_equal. rewrite map_map. rewrite <- (map_id (d :: c)) at 2. apply map_ext. intros; lia.
  - symmetry. apply forallb_forall. intros x I. apply in_map_iff in I as (y & <- & I). pose proof (proj1 (Forall_forall _ _) F y I) as R. unfold digit_label in R. unfold is_digit. lia.
Qed.
Lemma match_mi_alias us c : match_mi (alias us c) = None.
Proof. unfold match_mi, alias. cbn [app]. destruct (opt_underscore _) as [|x [|]]; reflexivity. Qed.

Section Clustered.
Context {K : Fld}.
Implicit Types (A : dict (mval K)).
Lemma cluster_masses_get cs : forall A A' n, cluster_masses cs A = Ok A' -> length A' = length A /\
  match dict_get n A with None => dict_get n A' = None | Some v => exists v', cluster_mass cs v = Ok v' /\ dict_get n A' = Some v' end.
Proof.
  induction A as [|[k v] A IH]; intros A' n E; cbn in E; [injection E as <-; split; reflexivity|].
  destruct (cluster_mass cs v) as [v'|] eqn:Ev; [|discriminate]. cbn in E.
  destruct (rmapM (fun kv => rmap (pair (fst kv)) (cluster_mass cs (snd kv))) A) as [R|] eqn:E'; [|discriminate]. injection E as <-.
  destruct (IH R n E') as [L H]. cbn. split; [congruence|]. destruct (str_eqb n k); [eauto|exact H].
Qed.
Lemma alias_compute f (s : ps K) A us c : c <> [] -> Forall digit_label c -> compute_name_fuel f s A (alias us c) = c_S s c.
Proof. intros N F. destruct f; cbn [compute_name_fuel]; rewrite match_mi_alias, match_s_alias by assumption; reflexivity. Qed.
Lemma name_compute (s : ps K) A n t : mass_name n -> match_s n = None -> dict_get n A = Some (MStr t) -> compute_name s A n = compute_name_fuel (pred (length A)) s A t.
Proof.
  intros (M & I & _) S G. unfold compute_name. destruct A as [|kv A]; [discriminate|]. cbn [length pred compute_name_fuel]. rewrite I, S, M, G. reflexivity.
Qed.
Lemma mass_not_s n : is_mass n = true -> match_s n = None.
Proof.
  unfold is_mass, match_s. destruct n as [|c n]; [discriminate|]. intros H. apply andb_true_iff in H as [H _].
  destruct ((c =? 115) || (c =? 83)) eqn:E; [|reflexivity]. exfalso. lia.
Qed.
Lemma number_compute (s : ps K) A n x : mass_name n -> dict_get n A = Some (MNum x) -> compute_name s A n = Ok x.
Proof.
  intros (M & I & _) G. unfold compute_name. destruct A as [|kv A]; [discriminate|]. cbn [length compute_name_fuel]. rewrite I, (mass_not_s n M), M, G. reflexivity.
Qed.
Lemma alias_clustered cv cs (s s' : ps K) A A' n us c j : cluster cv cs s = Ok s' -> sound s -> cluster_masses cs A = Ok A' ->
  (length cs <= 9)%nat -> Forall (Forall digit_label) cs -> nth_error cs j = Some c ->
  (forall i d r, (i < j)%nat -> nth_error cs i = Some d -> c = d ++ r -> r = []) ->
  mass_name n -> dict_get n A = Some (MStr (alias us c)) ->
  compute_name s' A' n = compute_name s A n /\ compute_name s A n = c_S s c.
Proof.
  intros C S M L F N P Mn G.
  assert (F' : Forall (fun c => c <> [] /\ Forall digit_label c) cs).
  { apply Forall_forall. intros d I. split; [|exact (proj1 (Forall_forall _ _) F d I)]. intros ->. apply In_nth_error in I as (i & Ni).
    assert (Gi : getitem cs (Z.of_nat i + 1) = Ok []).
    { assert (R : 1 <= Z.of_nat i + 1 <= zlen cs) by (assert (i < length cs)%nat by (apply nth_error_Some; congruence); unfold zlen; lia).
      destruct (getitem_ok cs _ R) as (x & Ex & Nx). rewrite Ex. replace (Z.to_nat (Z.of_nat i + 1 - 1)) with i in Nx by lia. congruence. }
    destruct (cluster_get cv cs s s' _ _ C Gi) as (p & _ & Cp). apply corner_sum_spec in Cp. tauto. }
  destruct (proj1 (Forall_forall _ _) F' c (nth_error_In _ _ N)) as [Nc Dc].
  assert (E0 : compute_name s A n = c_S s c) by (rewrite (name_compute s A n _ Mn (mass_not_s n (proj1 Mn)) G); apply alias_compute; assumption).
  split; [|exact E0]. rewrite E0.
  destruct (cluster_masses_get cs A A' n M) as [_ H]. rewrite G in H. destruct H as (v' & Ev & G'). cbn [cluster_mass] in Ev.
  destruct (subs_alias us cs j c N F' P) as (i & Ni & Es). rewrite Es in Ev. cbn [rmap] in Ev. apply (f_equal (fun r => match r with Ok x => x | Err _ => v' end)) in Ev. rewrite <- Ev in G'.
  assert (Li : (i < length cs)%nat) by (apply nth_error_Some; congruence).
  rewrite (name_compute s' A' n _ Mn (mass_not_s n (proj1 Mn)) G').
  rewrite dec_digit by lia. change (pre us ++ [48 + Z.of_nat (1 + i)]) with (alias us [Z.of_nat (1 + i)]).
  rewrite alias_compute; [|discriminate|repeat constructor; lia].
  assert (R : in_range cs (Z.of_nat (1 + i))) by (unfold in_range, zlen; lia).
  pose proof (cluster_compute cv cs s s' C S (IS [Z.of_nat (1 + i)]) ltac:(cbn; constructor; [exact R|constructor])) as Q.
  cbn [compute expand flat_map] in Q. rewrite app_nil_r in Q.
  assert (Ec : corner cs (Z.of_nat (1 + i)) = c).
  { unfold corner. destruct (getitem_ok cs _ R) as (x & Ex & Nx). rewrite Ex. replace (Z.to_nat (Z.of_nat (1 + i) - 1)) with i in Nx by lia. congruence. }
  rewrite Ec in Q. destruct (c_S s' [Z.of_nat (1 + i)]), (c_S s c); cbn in Q; congruence.
Qed.
End Clustered.

(* ---- bookkeeping ---- *)
Section Book.
Context {K : Fld}.
Implicit Types (A : dict (mval K)) (w : world K) (S : list (list pystr)) (n m : pystr).
Lemma set_add_In n ns x : In x (set_add n ns) <-> x = n \/ In x ns.
Proof.
  unfold set_add. destruct (existsb (str_eqb n) ns) eqn:E.
  - apply existsb_exists in E as (y & I & Ey). destruct (str_eqb_spec n y) as [<-|]; [|discriminate]. split; [tauto|]. intros [->|]; assumption.
  - rewrite in_app_iff. cbn. intuition.
Qed.
Lemma upd_length {B} (f : B -> B) l i : length (upd f l i) = length l.
Proof. revert i. induction l as [|x l IH]; intros [|i]; cbn; auto. Qed.
Lemma upd_nth {B} (f : B -> B) l : forall i j, nth_error (upd f l i) j = if (i =? j)%nat then option_map f (nth_error l j) else nth_error l j.
Proof. induction l as [|x l IH]; intros [|i] [|j]; cbn; try reflexivity; [destruct (i =? j)%nat; reflexivity|apply IH]. Qed.
Lemma upd_nth_d {B} (f : B -> B) l i j d : (i < length l)%nat -> nth j (upd f l i) d = if (i =? j)%nat then f (nth i l d) else nth j l d.
Proof.
  revert i j. induction l as [|x l IH]; intros i j L; [cbn in L; lia|]. destruct i as [|i], j as [|j]; cbn; try reflexivity. apply IH. cbn in L. lia.
Qed.
(* one assignment *)
Lemma setattr_set S l A n v : mass_name n -> setattr S (CSet l) A n v = (upd (set_add n) S l, Ok (dict_set n v A)).
Proof. intros (M & _ & P). unfold setattr. rewrite M, P. reflexivity. Qed.
(* what the bookkeeping of one point looks like *)
Definition book S l A : Prop := (l < length S)%nat /\ forall n, In n (nth l S []) <-> dict_get n A <> None.
Lemma book_set S l A n v : book S l A -> book (upd (set_add n) S l) l (dict_set n v A).
Proof.
  intros [L B]. split; [rewrite upd_length; exact L|]. intros m. rewrite upd_nth_d by exact L. rewrite Nat.eqb_refl, set_add_In, dict_get_set, B.
  destruct (str_eqb_spec m n) as [->|N]; [intuition discriminate|intuition].
Qed.
Lemma setattrs_book d : forall S l A, Forall (fun kv => mass_name (fst kv)) d -> (l < length S)%nat ->
  exists S' A', setattrs S (CSet l) A d = (S', Ok A') /\ length S' = length S /\ A' = dict_update A d /\
    (forall j, j <> l -> nth j S' [] = nth j S []) /\ (forall n, In n (nth l S' []) <-> In n (nth l S []) \/ In n (map fst d)).
Proof.
  induction d as [|[n v] d IH]; intros S l A F L; [exists S, A; cbn; intuition|].
  apply Forall_cons_iff in F as [M F]. cbn [fst] in M. cbn [setattrs]. rewrite (setattr_set S l A n v M).
  destruct (IH (upd (set_add n) S l) l (dict_set n v A) F) as (S' & A' & E & L' & EA & O & I); [rewrite upd_length; exact L|].
  exists S', A'. rewrite upd_length in L'. split; [exact E|]. split; [exact L'|]. split; [exact EA|]. split.
  - intros j N. rewrite (O j N), upd_nth_d by exact L. destruct (Nat.eqb_spec l j); [congruence|reflexivity].
  - intros x. rewrite I, upd_nth_d by exact L. rewrite Nat.eqb_refl, set_add_In. cbn. intuition.
Qed.
Lemma dict_update_get {B} (d : dict B) : forall (A : dict B) k, dict_get k (dict_update A d) <> None <-> dict_get k A <> None \/ In k (map fst d).
Proof.
  induction d as [|[n v] d IH]; intros A k; [cbn; tauto|]. change (dict_update A ((n, v) :: d)) with (dict_update (dict_set n v A) d). rewrite IH, dict_get_set.
  cbn. destruct (str_eqb_spec k n) as [->|N]; intuition congruence.
Qed.
Lemma dict_update_val {B} (d : dict B) : forall (A : dict B) k, NoDup (map fst d) -> dict_get k (dict_update A d) = match dict_get k d with Some v => Some v | None => dict_get k A end.
Proof.
  induction d as [|[n v] d IH]; intros A k ND; [reflexivity|]. cbn in ND. apply NoDup_cons_iff in ND as [NI ND].
  change (dict_update A ((n, v) :: d)) with (dict_update (dict_set n v A) d). rewrite (IH _ _ ND), dict_get_set. cbn.
  destruct (str_eqb_spec k n) as [->|N]; [|reflexivity]. destruct (dict_get n d) eqn:G; [|reflexivity]. exfalso. apply NI. clear - G.
  induction d as [|[a x] d IH]; cbn in *; [discriminate|]. destruct (str_eqb_spec n a); [left; congruence|right; exact (IH G)].
Qed.
Definition tidy w : Prop :=
  (forall i o, nth_error (objs w) i = Some o -> exists l, masses o = CSet l /\ book (sets w) l (attrs o)) /\
  (forall i j o o', nth_error (objs w) i = Some o -> nth_error (objs w) j = Some o' -> masses o = masses o' -> i = j).
Lemma dict_get_In {B} (d : dict B) k : dict_get k d <> None <-> In k (map fst d).
Proof.
  induction d as [|[a x] d IH]; cbn; [tauto|]. destruct (str_eqb_spec k a) as [->|N]; [intuition discriminate|]. rewrite IH. intuition congruence.
Qed.

Lemma book_ext S S' l A : book S l A -> length S' = length S -> nth l S' [] = nth l S [] -> book S' l A.
Proof. intros [L B] EL E. split; [lia|]. rewrite E. exact B. Qed.
Lemma nth_error_snoc {B} (l : list B) x i y : nth_error (l ++ [x]) i = Some y -> nth_error l i = Some y \/ i = length l /\ y = x.
Proof.
  intros E. destruct (Nat.lt_ge_cases i (length l)) as [L|L]; [rewrite nth_error_app1 in E by exact L; left; exact E|].
  rewrite nth_error_app2 in E by exact L. right. destruct (i - length l)%nat as [|k] eqn:D; [cbn in E; injection E as ->; split; [lia|reflexivity]|]. destruct k; discriminate.
Qed.
(* a new point whose set is held by no other one *)
Lemma tidy_new S w l d A : tidy w -> ~ held w l -> (l < length S)%nat -> (length (sets w) <= length S)%nat ->
  (forall j, j <> l -> (j < length (sets w))%nat -> nth j S [] = nth j (sets w) []) ->
  (forall n, In n (nth l S []) <-> dict_get n A <> None) -> d = mkObj (CSet l) A -> tidy (mkW S (objs w ++ [d])).
Proof.
  intros [T D] H L LS O B ->. split; cbn [objs sets].
  - intros i o N. destruct (nth_error_snoc _ _ _ _ N) as [N'|[_ ->]].
    + destruct (T i o N') as (k & Ek & Lk & Bk). exists k. split; [exact Ek|]. split; [lia|]. rewrite O; [exact Bk| |exact Lk].
      intros ->. apply H. exists o. split; [exact (nth_error_In _ _ N')|exact Ek].
    + exists l. split; [reflexivity|]. split; [exact L|exact B].
  - intros i j o o' Ni Nj E. destruct (nth_error_snoc _ _ _ _ Ni) as [Ni'|[-> ->]], (nth_error_snoc _ _ _ _ Nj) as [Nj'|[-> ->]]; try reflexivity.
    + exact (D i j o o' Ni' Nj' E).
    + exfalso. apply H. exists o. split; [exact (nth_error_In _ _ Ni')|exact E].
    + exfalso. apply H. exists o'. split; [exact (nth_error_In _ _ Nj')|symmetry; exact E].
Qed.
Lemma not_held_new w : tidy w -> ~ held w (length (sets w)).
Proof. intros [T _] (o & I & E). apply In_nth_error in I as (i & N). destruct (T i o N) as (l & El & L & _). rewrite El in E. injection E as ->. lia. Qed.
Lemma nth_snoc_old {B} (l : list B) x j d : (j < length l)%nat -> nth j (l ++ [x]) d = nth j l d.
Proof. intros L. apply app_nth1. exact L. Qed.

Lemma new_dict w d rnd : tidy w -> Forall (fun kv => mass_name (fst kv)) d ->
  exists w', construct (ADict d) rnd w = (w', Ok tt) /\ tidy w' /\
    nth_error (objs w') (length (objs w)) = Some (mkObj (CSet (length (sets w))) (dict_update [] d)) /\
    (forall j o, nth_error (objs w) j = Some o -> nth_error (objs w') j = Some o /\ internal_masses w' o = internal_masses w o).
Proof.
  intros T F. unfold construct. set (L := length (sets w)).
  assert (LL : (L < length (sets w ++ [[]]))%nat) by (rewrite app_length; cbn; unfold L; lia).
  destruct (setattrs_book d (sets w ++ [[]]) L [] F LL) as (S' & A' & E & EL & -> & O & I). rewrite E.
  assert (Hold : forall j, j <> L -> (j < length (sets w))%nat -> nth j S' [] = nth j (sets w) []) by (intros j N Lj; rewrite (O j N); apply nth_snoc_old; exact Lj).
  eexists. split; [reflexivity|]. split; [|split].
  - apply (tidy_new S' w L _ (dict_update [] d) T (not_held_new w T)); [rewrite EL; exact LL|rewrite EL, app_length; lia|exact Hold| |reflexivity].
    intros n. rewrite I, dict_update_get. unfold L. rewrite app_nth2, Nat.sub_diag by lia. cbn. intuition.
  - cbn [objs]. rewrite nth_error_app2, Nat.sub_diag by lia. reflexivity.
  - intros j o N. cbn [objs]. split; [rewrite nth_error_app1; [exact N|apply nth_error_Some; congruence]|].
    destruct (proj1 T j o N) as (l & El & Ll & _). unfold internal_masses. rewrite El. cbn [elements sets]. apply Hold; [unfold L; lia|exact Ll].
Qed.
Lemma new_none w rnd : construct ANone rnd w = construct (ADict []) rnd w.
Proof. reflexivity. Qed.
Lemma new_set w l rnd : tidy w -> (l < length (sets w))%nat -> ~ held w l -> Forall mass_name (nth l (sets w) []) ->
  exists w', construct (ANames (CSet l)) rnd w = (w', Ok tt) /\ tidy w' /\
    nth_error (objs w') (length (objs w)) = Some (mkObj (CSet l) (dict_update [] (map (fun n => (n, MNum (rnd n))) (nth l (sets w) [])))) /\
    (forall j o, nth_error (objs w) j = Some o -> nth_error (objs w') j = Some o /\ internal_masses w' o = internal_masses w o).
Proof.
  intros T L H F. unfold construct. cbn [elements]. set (d := map (fun n => (n, MNum (rnd n))) (nth l (sets w) [])).
  assert (Fd : Forall (fun kv => mass_name (fst kv)) d) by (unfold d; rewrite Forall_map; exact F).
  destruct (setattrs_book d (sets w) l [] Fd L) as (S' & A' & E & EL & -> & O & I). rewrite E.
  eexists. split; [reflexivity|]. split; [|split].
  - apply (tidy_new S' w l _ (dict_update [] d) T H); [lia|lia|intros j N _; exact (O j N)| |reflexivity].
    intros n. rewrite I, dict_update_get. unfold d. rewrite map_map. cbn [fst]. rewrite map_id. cbn. intuition.
  - cbn [objs]. rewrite nth_error_app2, Nat.sub_diag by lia. reflexivity.
  - intros j o N. cbn [objs]. split; [rewrite nth_error_app1; [exact N|apply nth_error_Some; congruence]|].
    destruct (proj1 T j o N) as (k & Ek & Lk & _). unfold internal_masses. rewrite Ek. cbn [elements sets]. apply O. intros ->. apply H. exists o. split; [exact (nth_error_In _ _ N)|exact Ek].
Qed.
Lemma assign_ok w i o n v : tidy w -> nth_error (objs w) i = Some o -> mass_name n ->
  exists w', assign i n v w = (w', Ok tt) /\ tidy w' /\ nth_error (objs w') i = Some (mkObj (masses o) (dict_set n v (attrs o))) /\
    (forall m, In m (internal_masses w' (mkObj (masses o) (dict_set n v (attrs o)))) <-> m = n \/ In m (internal_masses w o)) /\
    length (objs w') = length (objs w) /\
    (forall j o', j <> i -> nth_error (objs w) j = Some o' -> nth_error (objs w') j = Some o' /\ internal_masses w' o' = internal_masses w o').
Proof.
  intros T N M. destruct (proj1 T i o N) as (l & El & L & B). unfold assign. rewrite N, El, (setattr_set _ _ _ _ _ M). rewrite <- El.
  assert (Hi : nth_error (upd (fun _ => mkObj (masses o) (dict_set n v (attrs o))) (objs w) i) i = Some (mkObj (masses o) (dict_set n v (attrs o)))) by (rewrite upd_nth, Nat.eqb_refl, N; reflexivity).
  assert (Ho : forall j, j <> i -> nth_error (upd (fun _ => mkObj (masses o) (dict_set n v (attrs o))) (objs w) i) j = nth_error (objs w) j)
    by (intros j Nj; rewrite upd_nth; destruct (Nat.eqb_spec i j); [congruence|reflexivity]).
  assert (Hs : forall j o', j <> i -> nth_error (objs w) j = Some o' -> internal_masses (mkW (upd (set_add n) (sets w) l) (upd (fun _ => mkObj (masses o) (dict_set n v (attrs o))) (objs w) i)) o' = internal_masses w o').
  { intros j o' Nj Nj'. destruct (proj1 T j o' Nj') as (k & Ek & _). unfold internal_masses. rewrite Ek. cbn [elements sets]. rewrite upd_nth_d by exact L.
    destruct (Nat.eqb_spec l k) as [->|]; [|reflexivity]. exfalso. apply Nj. apply (proj2 T j i o' o Nj' N). congruence. }
  eexists. split; [reflexivity|]. split; [|split; [exact Hi|split; [|split; [apply upd_length|]]]].
  - split; cbn [objs sets].
    + intros j o' Nj. destruct (Nat.eq_dec j i) as [->|D].
      * rewrite Hi in Nj. injection Nj as <-. exists l. split; [exact El|]. apply book_set. split; assumption.
      * rewrite (Ho j D) in Nj. destruct (proj1 T j o' Nj) as (k & Ek & Bk). exists k. split; [exact Ek|]. apply (book_ext (sets w)); [exact Bk|apply upd_length|].
        rewrite upd_nth_d by exact L. destruct (Nat.eqb_spec l k) as [->|]; [|reflexivity]. exfalso. apply D. apply (proj2 T j i o' o Nj N). congruence.
    + intros a b oa ob Na Nb E.
      assert (Q : forall a oa, nth_error (upd (fun _ => mkObj (masses o) (dict_set n v (attrs o))) (objs w) i) a = Some oa -> exists oa', nth_error (objs w) a = Some oa' /\ masses oa = masses oa').
      { intros c oc Nc. destruct (Nat.eq_dec c i) as [->|D]; [rewrite Hi in Nc; injection Nc as <-; exists o; split; [exact N|reflexivity]|]. rewrite (Ho c D) in Nc. eauto. }
      destruct (Q a oa Na) as (oa' & Na' & Ea), (Q b ob Nb) as (ob' & Nb' & Eb). apply (proj2 T a b oa' ob' Na' Nb'). congruence.
  - intros m. unfold internal_masses. cbn [masses sets]. rewrite El. cbn [elements]. rewrite upd_nth_d by exact L. rewrite Nat.eqb_refl. apply set_add_In.
  - intros j o' D Nj. cbn [objs]. rewrite (Ho j D). split; [exact Nj|]. exact (Hs j o' D Nj).
Qed.
Lemma fair_tidy l : forall w, tidy w -> fair_run l w -> tidy (run l w).
Proof.
  induction l as [|o l IH]; intros w T F; [exact T|]. destruct F as [Fo F]. change (run (o :: l) w) with (run l (run_op o w)). apply IH; [|exact F].
  destruct o as [ns|a rnd|i n v]; cbn [run_op fair] in *.
  - split; cbn [objs sets].
    + intros i o N. destruct (proj1 T i o N) as (k & Ek & Lk & Bk). exists k. split; [exact Ek|]. split; [rewrite app_length; lia|]. rewrite nth_snoc_old by exact Lk. exact Bk.
    + exact (proj2 T).
  - destruct a as [|d|[k|ns|ns]]; try contradiction.
    + rewrite new_none. destruct (new_dict w [] rnd T (Forall_nil _)) as (w' & E & T' & _). rewrite E. exact T'.
    + destruct (new_dict w d rnd T Fo) as (w' & E & T' & _). rewrite E. exact T'.
    + destruct Fo as (L & H & M). destruct (new_set w k rnd T L H M) as (w' & E & T' & _). rewrite E. exact T'.
  - destruct (nth_error (objs w) i) as [o|] eqn:N; [|unfold assign; rewrite N; exact T]. destruct (assign_ok w i o n v T N Fo) as (w' & E & T' & _). rewrite E. exact T'.
Qed.
Lemma tidy0 : tidy world0.
Proof. split; intros [|] ?; discriminate. Qed.
Lemma tidy_dict w i o : tidy w -> nth_error (objs w) i = Some o -> exists d, internal_masses_dict w o = Ok d /\ forall n, dict_get n d = dict_get n (attrs o).
Proof.
  intros T N. destruct (proj1 T i o N) as (l & El & L & B). unfold internal_masses_dict, internal_masses. rewrite El. cbn [elements].
  assert (H : forall ns, (forall n, In n ns -> dict_get n (attrs o) <> None) ->
    exists d, rmapM (fun n => match dict_get n (attrs o) with Some v => Ok (n, v) | None => Err AttributeError end) ns = Ok d /\
      forall n, dict_get n d = if existsb (str_eqb n) ns then dict_get n (attrs o) else None).
  { induction ns as [|x ns IH]; intros H; [exists []; split; reflexivity|]. destruct (IH (fun n I => H n (or_intror I))) as (d & E & G).
    destruct (dict_get x (attrs o)) as [v|] eqn:Gx; [|exfalso; exact (H x (or_introl eq_refl) Gx)]. exists ((x, v) :: d). cbn. rewrite Gx, E. split; [reflexivity|].
    intros n. destruct (str_eqb_spec n x) as [->|]; cbn; [symmetry; exact Gx|apply G]. }
  destruct (H (nth l (sets w) []) (fun n I => proj1 (B n) I)) as (d & E & G). exists d. split; [exact E|]. intros n. rewrite G.
  destruct (existsb (str_eqb n) (nth l (sets w) [])) eqn:Ex; [reflexivity|]. destruct (dict_get n (attrs o)) eqn:Gn; [|reflexivity]. exfalso.
  assert (I : In n (nth l (sets w) [])) by (apply B; congruence). assert (Q : existsb (str_eqb n) (nth l (sets w) []) = true); [|congruence].
  apply existsb_exists. exists n. split; [exact I|]. destruct (str_eqb_spec n n); congruence.
Qed.
End Book.
