(* The removal of equal four-brackets (invariants.py:282-324): it works on each pair of equal
   end labels by itself, and it depends on the order in which sets are listed. *)
From Coq Require Import List ZArith Bool Lia Sorted Permutation.
From Verif Require Import Base Str Gen GenSpec GenThm GenThm2.
Import ListNotations.
Open Scope Z_scope.

Definition brk_dec (a b : brk) : {a = b} + {a <> b} := match brk_eqb_spec a b with ReflectT _ e => left e | ReflectF _ n => right n end.
Lemma memb_not x l : ~ In x l -> memb x l = false.
Proof. intros H. destruct (memb x l) eqn:E; [|reflexivity]. apply memb_In in E. contradiction. Qed.
Lemma memb_mid x A G B : ~ In x A -> ~ In x B -> memb x (A ++ G ++ B) = memb x G.
Proof. intros HA HB. unfold memb. rewrite !existsb_app. fold (memb x A) (memb x G) (memb x B). rewrite (memb_not x A HA), (memb_not x B HB), orb_false_r. reflexivity. Qed.
Lemma index_app x A l : ~ In x A -> index_of x (A ++ l) = (length A + index_of x l)%nat.
Proof.
  induction A as [|y A IH]; intros H; [reflexivity|]. cbn [app index_of length]. destruct (brk_eqb_spec y x) as [->|N]; [destruct H; left; reflexivity|].
  rewrite IH by (intros I; apply H; right; exact I). reflexivity.
Qed.
Lemma index_in x l B : In x l -> index_of x (l ++ B) = index_of x l.
Proof.
  induction l as [|y l IH]; intros H; [destruct H|]. cbn [app index_of]. destruct (brk_eqb_spec y x) as [_|N]; [reflexivity|]. destruct H as [->|H]; [contradiction|]. rewrite IH by exact H. reflexivity.
Qed.
Lemma remove1_mid x A G B : ~ In x A -> ~ In x B -> remove1 brk_eqb x (A ++ G ++ B) = rmap (fun G' => A ++ G' ++ B) (remove1 brk_eqb x G).
Proof.
  intros HA HB. induction A as [|y A IH].
  - cbn [app]. induction G as [|y G IHG]; cbn [app remove1].
    + rewrite (remove1_err brk_eqb brk_eqb_spec x B HB). reflexivity.
    + destruct (brk_eqb y x); [reflexivity|]. rewrite IHG. destruct (remove1 brk_eqb x G); reflexivity.
  - cbn [app remove1]. destruct (brk_eqb_spec y x) as [->|N]; [destruct HA; left; reflexivity|]. rewrite IH by (intros I; apply HA; right; exact I). destruct (remove1 brk_eqb x G); reflexivity.
Qed.

Section Cells.
Variable ord : brk -> bool -> list Z -> list Z.
Variable n : Z.
Lemma loop_app all t1 : forall i t2 r, dedupe_loop ord n all i (t1 ++ t2) r = rbind (dedupe_loop ord n all i t1 r) (fun r' => dedupe_loop ord n all (i + length t1) t2 r').
Proof.
  induction t1 as [|b t1 IH]; intros i t2 r; cbn [app dedupe_loop length]; [rewrite Nat.add_0_r; reflexivity|].
  destruct (dedupe_step ord n all i b r) as [r'|e]; [|reflexivity]. cbn [rbind]. rewrite IH. cbn [Nat.add]. rewrite <- Nat.add_succ_r. reflexivity.
Qed.
Lemma loop_skip all t : (forall b, In b t -> b_i b <> b_j b) -> forall i r, dedupe_loop ord n all i t r = Ok r.
Proof.
  induction t as [|b t IH]; intros H i r; [reflexivity|]. cbn [dedupe_loop]. unfold dedupe_step. destruct (Z.eqb_spec (b_i b) (b_j b)) as [E|_]; [destruct (H b (or_introl eq_refl) E)|].
  cbn [negb rbind]. apply IH. intros c Hc. apply H. right; exact Hc.
Qed.
(* a block of entries with the end labels i, j among others without *)
Definition off (i j : Z) (l : list brk) : Prop := forall x, In x l -> b_i x = i /\ b_j x = j -> False.
Lemma step_block i j A G B A0 G0 B0 k b : b_i b = i -> b_j b = j -> off i j A -> off i j B -> off i j A0 -> off i j B0 -> incl G G0 ->
  dedupe_step ord n (A0 ++ G0 ++ B0) (length A0 + k) b (A ++ G ++ B) = rmap (fun G' => A ++ G' ++ B) (dedupe_step ord n G0 k b G).
Proof.
  intros Ei Ej OA OB OA0 OB0 I.
  assert (NI : forall (x : brk) l, off i j l -> b_i x = b_i b -> b_j x = b_j b -> ~ In x l) by (intros x l O X Y H; apply (O x H); split; congruence).
  unfold dedupe_step. destruct (negb (b_i b =? b_j b)) eqn:D; [reflexivity|]. cbv zeta.
  assert (IDX : forall x G', b_i x = b_i b -> b_j x = b_j b -> incl G' G0 -> memb x G' = true -> ((length A0 + k <? index_of x (A0 ++ G0 ++ B0)) = (k <? index_of x G0))%nat).
  { intros x G' X Y IG H. apply memb_In, IG in H. rewrite index_app by (apply NI; auto). rewrite index_in by exact H.
    destruct (Nat.ltb_spec k (index_of x G0)), (Nat.ltb_spec (length A0 + k) (length A0 + index_of x G0)); auto; lia. }
  assert (SECOND : forall G', incl G' G0 ->
    (if subset (mid1 b) (alt0 n b)
     then if memb (Brk (b_ang b) (b_i b) [ord b false (set_diff (alt0 n b) (mid1 b)); ord b false (mid1 b)] (b_j b)) (A ++ G' ++ B) &&
             (length A0 + k <? index_of (Brk (b_ang b) (b_i b) [ord b false (set_diff (alt0 n b) (mid1 b)); ord b false (mid1 b)] (b_j b)) (A0 ++ G0 ++ B0))%nat
          then remove1 brk_eqb (Brk (b_ang b) (b_i b) [ord b false (set_diff (alt0 n b) (mid1 b)); ord b false (mid1 b)] (b_j b)) (A ++ G' ++ B)
          else Ok (A ++ G' ++ B)
     else Ok (A ++ G' ++ B)) =
    rmap (fun G'' => A ++ G'' ++ B)
     (if subset (mid1 b) (alt0 n b)
      then if memb (Brk (b_ang b) (b_i b) [ord b false (set_diff (alt0 n b) (mid1 b)); ord b false (mid1 b)] (b_j b)) G' &&
              (k <? index_of (Brk (b_ang b) (b_i b) [ord b false (set_diff (alt0 n b) (mid1 b)); ord b false (mid1 b)] (b_j b)) G0)%nat
           then remove1 brk_eqb (Brk (b_ang b) (b_i b) [ord b false (set_diff (alt0 n b) (mid1 b)); ord b false (mid1 b)] (b_j b)) G'
           else Ok G'
      else Ok G')).
  { intros G' IG. destruct (subset (mid1 b) (alt0 n b)); [|reflexivity]. set (e := Brk _ _ _ _). rewrite (memb_mid e) by (apply NI; auto).
    destruct (memb e G') eqn:M; [|reflexivity]. rewrite (IDX e G') by auto. cbn [andb]. destruct (k <? index_of e G0)%nat; [|reflexivity]. rewrite remove1_mid by (apply NI; auto). reflexivity. }
  destruct (subset (mid0 b) (alt1 n b)); [|cbn [rbind]; apply SECOND; exact I].
  set (e := Brk (b_ang b) (b_i b) [ord b true (mid0 b); ord b true (set_diff (alt1 n b) (mid0 b))] (b_j b)).
  rewrite (memb_mid e A G B) by (apply NI; auto). destruct (memb e G) eqn:M; [|cbn [rbind]; apply SECOND; exact I].
  rewrite (IDX e G) by auto. rewrite (remove1_mid e A G B) by (apply NI; auto). rewrite (remove1_mid b A G B) by (apply NI; auto).
  assert (FIN : forall r : Base.result (list brk), (forall G', r = Ok G' -> incl G' G) ->
    rbind (rmap (fun G' => A ++ G' ++ B) r) (fun result => if subset (mid1 b) (alt0 n b)
     then if memb (Brk (b_ang b) (b_i b) [ord b false (set_diff (alt0 n b) (mid1 b)); ord b false (mid1 b)] (b_j b)) result &&
             (length A0 + k <? index_of (Brk (b_ang b) (b_i b) [ord b false (set_diff (alt0 n b) (mid1 b)); ord b false (mid1 b)] (b_j b)) (A0 ++ G0 ++ B0))%nat
          then remove1 brk_eqb (Brk (b_ang b) (b_i b) [ord b false (set_diff (alt0 n b) (mid1 b)); ord b false (mid1 b)] (b_j b)) result
          else Ok result
     else Ok result) =
    rmap (fun G'' => A ++ G'' ++ B) (rbind r (fun result => if subset (mid1 b) (alt0 n b)
      then if memb (Brk (b_ang b) (b_i b) [ord b false (set_diff (alt0 n b) (mid1 b)); ord b false (mid1 b)] (b_j b)) result &&
              (k <? index_of (Brk (b_ang b) (b_i b) [ord b false (set_diff (alt0 n b) (mid1 b)); ord b false (mid1 b)] (b_j b)) G0)%nat
           then remove1 brk_eqb (Brk (b_ang b) (b_i b) [ord b false (set_diff (alt0 n b) (mid1 b)); ord b false (mid1 b)] (b_j b)) result
           else Ok result
      else Ok result))).
  { intros [G'|x] H; [|reflexivity]. cbn [rmap rbind]. apply SECOND. eapply incl_tran; [apply H; reflexivity|exact I]. }
  assert (RE : forall G', remove1 brk_eqb e G = Ok G' -> incl G' G) by (intros G'; apply remove1_incl).
  assert (RB : forall G', remove1 brk_eqb b G = Ok G' -> incl G' G) by (intros G'; apply remove1_incl).
  assert (ID : forall G', Ok G = Ok G' -> incl G' G) by (intros G' E; injection E as <-; apply incl_refl).
  destruct (neighbouring n e), (neighbouring n b); cbn [andb negb]; [destruct (k <? index_of e G0)%nat| | |];
    first [exact (FIN _ RE)|exact (FIN _ RB)|exact (FIN (Ok G) ID)].
Qed.
Lemma loop_block i j A B A0 G0 B0 : off i j A -> off i j B -> off i j A0 -> off i j B0 -> forall todo k G, (forall b, In b todo -> b_i b = i /\ b_j b = j) -> incl G G0 ->
  dedupe_loop ord n (A0 ++ G0 ++ B0) (length A0 + k) todo (A ++ G ++ B) = rmap (fun G' => A ++ G' ++ B) (dedupe_loop ord n G0 k todo G).
Proof.
  intros OA OB OA0 OB0. induction todo as [|b todo IH]; intros k G T I; cbn [dedupe_loop]; [reflexivity|].
  destruct (T b (or_introl eq_refl)) as [Ei Ej]. rewrite (step_block i j A G B A0 G0 B0 k b Ei Ej OA OB OA0 OB0 I).
  destruct (dedupe_step ord n G0 k b G) as [G'|e] eqn:E; [|reflexivity]. cbn [rmap rbind]. rewrite <- Nat.add_succ_r. apply IH.
  - intros c Hc. apply T. right; exact Hc.
  - eapply incl_tran; [eapply step_incl; exact E|exact I].
Qed.

(* ---- the list, cell by cell ---- *)
Definition cell (i j : Z) : list brk := drop_products n (at_pair n 4 i j).
Definition cell_run (i : Z) : Base.result (list brk) := dedupe_loop ord n (cell i i) 0 (cell i i) (cell i i).
Definition before (i : Z) : list brk := flat_map (cell i) (zrange 1 i).
Definition after (i : Z) : list brk := flat_map (cell i) (zrange (i + 1) (n + 1)).
Definition row (i : Z) : list brk := before i ++ cell i i ++ after i.
Definition row_run (i : Z) : Base.result (list brk) := rmap (fun G => before i ++ G ++ after i) (cell_run i).
Lemma filter_flat_map {A B} (f : B -> bool) (g : A -> list B) l : filter f (flat_map g l) = flat_map (fun x => filter f (g x)) l.
Proof. induction l as [|x l IH]; [reflexivity|]. cbn [flat_map]. rewrite filter_app, IH. reflexivity. Qed.
Lemma zrange_split a b c : a <= b < c -> zrange a c = zrange a b ++ b :: zrange (b + 1) c.
Proof.
  intros H. apply sorted_ext.
  - apply zrange_sorted.
  - assert (S1 := zrange_sorted a b). assert (S2 := zrange_sorted (b + 1) c). assert (I : forall x, In x (zrange a b) -> x < b) by (intros x Hx; apply zrange_In in Hx; lia).
    assert (S3 : StronglySorted Z.lt (b :: zrange (b + 1) c)) by (constructor; [exact S2|apply Forall_forall; intros x Hx; apply zrange_In in Hx; lia]).
    induction (zrange a b) as [|x l IH]; [exact S3|]. inversion S1 as [|? ? S4 F]; subst. cbn [app]. constructor; [apply IH; auto; intros y Hy; apply I; right; exact Hy|].
    apply Forall_app. split; [exact F|]. specialize (I x (or_introl eq_refl)). constructor; [exact I|]. apply Forall_forall. intros y Hy. apply zrange_In in Hy. lia.
  - intros x. rewrite in_app_iff. cbn [In]. rewrite !zrange_In. lia.
Qed.
Lemma list4_rows : list4 n = flat_map row (zrange 1 (n + 1)).
Proof.
  unfold list4, raw4, drop_products. rewrite filter_flat_map. rewrite !flat_map_concat_map. f_equal. apply map_ext_in. intros i Hi. apply zrange_In in Hi. rewrite filter_flat_map.
  rewrite (zrange_split 1 i (n + 1)) by lia. rewrite flat_map_app. reflexivity.
Qed.
Lemma cell_ends i j b : 1 <= i <= n -> 1 <= j <= n -> In b (cell i j) -> b_i b = i /\ b_j b = j.
Proof. intros Hi Hj H. apply filter_In in H as [H _]. destruct (at_pair_4_In n i j b Hi Hj H) as (A & B & _). auto. Qed.
Lemma row_ends i b : 1 <= i <= n -> In b (row i) -> b_i b = i.
Proof.
  intros Hi H. unfold row, before, after in H. apply in_app_or in H as [H|H]; [|apply in_app_or in H as [H|H]].
  - apply in_flat_map in H as (j & Hj & H). apply zrange_In in Hj. apply (cell_ends i j) in H; [tauto|lia|lia].
  - apply (cell_ends i i) in H; tauto.
  - apply in_flat_map in H as (j & Hj & H). apply zrange_In in Hj. apply (cell_ends i j) in H; [tauto|lia|lia].
Qed.
Lemma before_ends i b : 1 <= i <= n -> In b (before i) -> b_i b = i /\ b_j b <> i.
Proof. intros Hi H. apply in_flat_map in H as (j & Hj & H). apply zrange_In in Hj. destruct (cell_ends i j b) as [A B]; auto; lia. Qed.
Lemma after_ends i b : 1 <= i <= n -> In b (after i) -> b_i b = i /\ b_j b <> i.
Proof. intros Hi H. apply in_flat_map in H as (j & Hj & H). apply zrange_In in Hj. destruct (cell_ends i j b) as [A B]; auto; lia. Qed.
Lemma rows_loop is_ : NoDup is_ -> Forall (fun i => 1 <= i <= n) is_ -> forall A0 A, (forall x, In x A0 \/ In x A -> ~ In (b_i x) is_) ->
  dedupe_loop ord n (A0 ++ flat_map row is_) (length A0) (flat_map row is_) (A ++ flat_map row is_) = rmap (fun ls => A ++ concat ls) (rmapM row_run is_).
Proof.
  induction is_ as [|i is_ IH]; intros N F A0 A H; [reflexivity|]. inversion N as [|? ? Ni N']; subst. inversion F as [|? ? Hi F']; subst.
  cbn [flat_map rmapM]. set (R := flat_map row is_). rewrite loop_app. set (ALL := A0 ++ row i ++ R). set (RES := A ++ row i ++ R).
  assert (FR : forall x, In x R -> b_i x <> i).
  { intros x Hx E. apply in_flat_map in Hx as (k & Hk & Hx). rewrite Forall_forall in F'. apply row_ends in Hx; [|apply F', Hk]. congruence. }
  assert (FA0 : forall x, In x A0 -> b_i x <> i) by (intros x Hx E; apply (H x (or_introl Hx)); left; auto).
  assert (FA : forall x, In x A -> b_i x <> i) by (intros x Hx E; apply (H x (or_intror Hx)); left; auto).
  unfold row at 1. rewrite !loop_app. rewrite loop_skip by (intros b Hb E; apply before_ends in Hb; [|exact Hi]; lia). cbn [rbind].
  replace ALL with ((A0 ++ before i) ++ cell i i ++ (after i ++ R)) by (unfold ALL, row; rewrite <- !app_assoc; reflexivity).
  replace RES with ((A ++ before i) ++ cell i i ++ (after i ++ R)) by (unfold RES, row; rewrite <- !app_assoc; reflexivity).
  replace (length A0 + length (before i))%nat with (length (A0 ++ before i) + 0)%nat by (rewrite app_length; lia).
  assert (OB : off i i (after i ++ R)) by (intros x Hx [X Y]; apply in_app_or in Hx as [Hx|Hx]; [apply after_ends in Hx; [lia|exact Hi]|apply (FR x Hx X)]).
  assert (OA0 : off i i (A0 ++ before i)) by (intros x Hx [X Y]; apply in_app_or in Hx as [Hx|Hx]; [apply (FA0 x Hx X)|apply before_ends in Hx; [lia|exact Hi]]).
  assert (OA : off i i (A ++ before i)) by (intros x Hx [X Y]; apply in_app_or in Hx as [Hx|Hx]; [apply (FA x Hx X)|apply before_ends in Hx; [lia|exact Hi]]).
  rewrite loop_app.
  rewrite (loop_block i i (A ++ before i) (after i ++ R) (A0 ++ before i) (cell i i) (after i ++ R) OA OB OA0 OB (cell i i) 0%nat (cell i i));
    [|intros b Hb; apply (cell_ends i i); auto|apply incl_refl].
  change (dedupe_loop ord n (cell i i) 0 (cell i i) (cell i i)) with (cell_run i). unfold row_run at 1. destruct (cell_run i) as [G|e] eqn:EG; [|reflexivity]. cbn [rmap rbind].
  rewrite loop_skip by (intros b Hb E; apply after_ends in Hb; [|exact Hi]; lia). cbn [rbind].
  replace ((A0 ++ before i) ++ cell i i ++ after i ++ R) with ((A0 ++ row i) ++ R) by (unfold row; rewrite <- !app_assoc; reflexivity).
  replace ((A ++ before i) ++ G ++ after i ++ R) with ((A ++ before i ++ G ++ after i) ++ R) by (rewrite <- !app_assoc; reflexivity).
  replace (length A0 + length (row i))%nat with (length (A0 ++ row i)) by (rewrite app_length; reflexivity).
  unfold R. rewrite IH; [|exact N'|exact F'|].
  - destruct (rmapM row_run is_) as [ls|]; [|reflexivity]. cbn [rmap rbind concat]. rewrite <- !app_assoc. reflexivity.
  - assert (GI : incl G (cell i i)) by (eapply loop_incl; exact EG).
    assert (RI : forall x, In x (row i) -> ~ In (b_i x) is_) by (intros x Hx I; apply row_ends in Hx; [congruence|exact Hi]).
    intros x [Hx|Hx].
    + apply in_app_or in Hx as [Hx|Hx]; [intros I; apply (H x (or_introl Hx)); right; exact I|apply RI, Hx].
    + apply in_app_or in Hx as [Hx|Hx]; [intros I; apply (H x (or_intror Hx)); right; exact I|]. apply RI. unfold row. apply in_app_or in Hx as [Hx|Hx]; [apply in_or_app; left; exact Hx|].
      apply in_or_app; right. apply in_or_app. apply in_app_or in Hx as [Hx|Hx]; auto.
Qed.
(* all_strings(n, "4"), one pair of equal end labels after the other *)
Theorem gen_4_rows : gen_4 ord n = rmap (@concat brk) (rmapM row_run (zrange 1 (n + 1))).
Proof.
  rewrite gen_4_eq, list4_rows. assert (H := rows_loop (zrange 1 (n + 1)) (zrange_NoDup 1 (n + 1))). specialize (H ltac:(apply Forall_forall; intros i Hi; apply zrange_In in Hi; lia) [] []).
  cbn [app length] in H. rewrite H; [|intros x [[]|[]]]. destruct (rmapM row_run (zrange 1 (n + 1))); reflexivity.
Qed.
End Cells.

(* ---- orders in which nothing is equal ---- *)
(* an order that never lists two labels or more ascending *)
Definition unsorted (ord : brk -> bool -> list Z -> list Z) : Prop := forall b br l, (2 <= length l)%nat -> StronglySorted Z.lt l -> ~ StronglySorted Z.lt (ord b br l).
Lemma step_quiet ord n all i b l : good4 n b -> (forall x, In x l -> good4 n x) ->
  (forall e, (subset (mid0 b) (alt1 n b) = true /\ e = Brk (b_ang b) (b_i b) [ord b true (mid0 b); ord b true (set_diff (alt1 n b) (mid0 b))] (b_j b)) \/
             (subset (mid1 b) (alt0 n b) = true /\ e = Brk (b_ang b) (b_i b) [ord b false (set_diff (alt0 n b) (mid1 b)); ord b false (mid1 b)] (b_j b)) -> ~ good4 n e) ->
  dedupe_step ord n all i b l = Ok l.
Proof.
  intros G GL Q. unfold dedupe_step. destruct (negb _); [reflexivity|]. cbv zeta.
  set (r1 := if subset (mid0 b) (alt1 n b) then _ else _).
  assert (E : r1 = Ok l).
  { unfold r1. destruct (subset (mid0 b) (alt1 n b)); [|reflexivity]. rewrite memb_not by (intros H; apply GL in H; revert H; apply Q; left; split; reflexivity). reflexivity. }
  rewrite E. cbn [rbind]. destruct (subset (mid1 b) (alt0 n b)); [|reflexivity]. rewrite memb_not by (intros H; apply GL in H; revert H; apply Q; right; split; reflexivity). reflexivity.
Qed.
Lemma loop_quiet ord n all todo : (forall b, In b todo -> good4 n b) ->
  (forall b, In b todo -> forall e, (subset (mid0 b) (alt1 n b) = true /\ e = Brk (b_ang b) (b_i b) [ord b true (mid0 b); ord b true (set_diff (alt1 n b) (mid0 b))] (b_j b)) \/
             (subset (mid1 b) (alt0 n b) = true /\ e = Brk (b_ang b) (b_i b) [ord b false (set_diff (alt0 n b) (mid1 b)); ord b false (mid1 b)] (b_j b)) -> ~ good4 n e) ->
  forall i l, (forall x, In x l -> good4 n x) -> dedupe_loop ord n all i todo l = Ok l.
Proof.
  induction todo as [|b todo IH]; intros G Q i l GL; [reflexivity|]. cbn [dedupe_loop]. rewrite step_quiet; [cbn [rbind]|apply G; left; reflexivity|exact GL|apply Q; left; reflexivity].
  apply IH; auto; intros c Hc; [apply G|apply Q]; right; exact Hc.
Qed.
Theorem gen_4_unsorted ord n : unsorted ord -> gen_4 ord n = Ok (list4 n).
Proof.
  intros U. rewrite gen_4_eq. apply loop_quiet; [apply list4_In| |apply list4_In]. intros b Hb e He (s & s' & Em & _ & _ & _ & S1 & S2 & _ & _ & _ & _).
  apply list4_In in Hb as (t & t' & Et & _ & _ & _ & T1 & T2 & _ & _ & L1 & L2). unfold mid0, mid1 in He. rewrite Et in He. cbn [nth] in He.
  destruct He as [[_ ->] | [_ ->]]; cbn [b_mid] in Em; injection Em as E1 E2.
  - apply (U b true t); [lia|exact T1|]. rewrite E1. exact S1.
  - apply (U b false t'); [lia|exact T2|]. rewrite E2. exact S2.
Qed.
(* up to six legs no third part of two labels is left over *)
Lemma diff_length a b : NoDup a -> NoDup b -> incl b a -> (length (set_diff a b) + length b = length a)%nat.
Proof.
  intros Na Nb I. rewrite <- app_length. apply Permutation_length. apply NoDup_Permutation.
  - apply NoDup_app''; [apply NoDup_filter, Na|exact Nb|]. intros x H H'. apply filter_In in H as [_ H]. rewrite negb_true_iff, memz_false in H. contradiction.
  - exact Na.
  - intros x. rewrite in_app_iff. unfold set_diff. rewrite filter_In, negb_true_iff, memz_false. split; [intros [[H _]|H]; auto|]. intros H. destruct (in_dec Z.eq_dec x b); auto.
Qed.
Lemma complementary_NoDup n l : NoDup (complementary n l). Proof. apply NoDup_filter, zrange_NoDup. Qed.
Lemma complementary_length n j l : 0 <= n -> 1 <= j <= n -> NoDup l -> incl l (beside n j 0) -> Z.of_nat (length (complementary n (j :: l))) = n - 1 - Z.of_nat (length l).
Proof.
  intros N J D I. assert (H := diff_length (zrange 1 (n + 1)) (j :: l) (zrange_NoDup 1 (n + 1))). change (set_diff (zrange 1 (n + 1)) (j :: l)) with (complementary n (j :: l)) in H.
  assert (Z := zrange_len 1 (n + 1) ltac:(lia)). cbn [length] in H. assert (H' : (length (complementary n (j :: l)) + S (length l) = length (zrange 1 (n + 1)))%nat); [|lia]. apply H.
  - constructor; [|exact D]. intros K. apply I, beside_In in K. lia.
  - intros x [<-|K]; apply zrange_In; [lia|]. apply I, beside_In in K. lia.
Qed.
Lemma subset_incl a b : subset a b = true -> incl a b.
Proof. unfold subset. intros H x Hx. rewrite forallb_forall in H. apply memz_In, H, Hx. Qed.
Theorem gen_4_small ord n : n <= 6 -> (forall b br l, length (ord b br l) = length l) -> gen_4 ord n = Ok (list4 n).
Proof.
  intros N P. rewrite gen_4_eq. apply loop_quiet; [apply list4_In| |apply list4_In]. intros b Hb e He (s & s' & Em & _ & _ & _ & _ & _ & _ & _ & K1 & K2).
  apply list4_In in Hb as (t & t' & Et & Hi & Hj & _ & T1 & T2 & I1 & I2 & L1 & L2). unfold alt0, alt1, mid0, mid1 in He. rewrite Et in He. cbn [nth] in He.
  assert (C1 := complementary_length n (b_i b) t ltac:(lia) ltac:(lia) (sorted_lt_NoDup t T1) I1). assert (C2 := complementary_length n (b_j b) t' ltac:(lia) ltac:(lia) (sorted_lt_NoDup t' T2) I2).
  destruct He as [[S ->] | [S ->]]; cbn [b_mid] in Em; injection Em as E1 E2; apply subset_incl in S.
  - assert (D := diff_length _ _ (complementary_NoDup n (b_j b :: t')) (sorted_lt_NoDup t T1) S). apply (f_equal (@length Z)) in E2. rewrite P in E2. lia.
  - assert (D := diff_length _ _ (complementary_NoDup n (b_i b :: t)) (sorted_lt_NoDup t' T2) S). apply (f_equal (@length Z)) in E1. rewrite P in E1. lia.
Qed.
