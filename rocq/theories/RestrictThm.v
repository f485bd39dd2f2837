(* The neighbour tests decide whether legs are consecutive. *)
From Coq Require Import Ascii String.
From Coq Require Import List ZArith Bool Lia Sorted.
From Verif Require Import Base Str Gen GenSpec GenThm GenThm2 RestrictSpec.
Import ListNotations.
Open Scope Z_scope.

(* ---- what can be reached from a within X ---- *)
Definition adj (n x y : Z) : Prop := y = x + 1 \/ y = x - 1 \/ (x = n /\ y = 1) \/ (x = 1 /\ y = n).
Lemma nearby_In n x y : In y (nearby n x) <-> adj n x y.
Proof.
  unfold nearby, adj. rewrite !in_app_iff. cbn [In]. destruct (x =? n) eqn:A, (x =? 1) eqn:B; cbn [In]; lia.
Qed.
Inductive conn (n : Z) (X : list Z) (a : Z) : Z -> Prop :=
| conn0 : conn n X a a
| conn1 x y : conn n X a x -> adj n x y -> In y X -> conn n X a y.

Lemma filter_length_le (f : Z -> bool) l : (length (filter f l) <= length l)%nat.
Proof. induction l as [|x l IH]; [auto|]. cbn [filter]. destruct (f x); cbn [length]; lia. Qed.

Section Closure.
Variables (n a : Z) (L : list Z) (g : Z -> list Z -> list Z) (near0 : list Z).
Hypothesis near0_In : forall y, In y near0 <-> y = a \/ adj n a y.
Hypothesis g_In : forall x near y, In y (g x near) <-> In y near \/ (In x near /\ adj n x y).
Let step near := fold_left (fun near x => g x near) L near.
Let A m := Nat.iter m step near0.
Lemma fold_more l near y : In y near -> In y (fold_left (fun near x => g x near) l near).
Proof. revert near; induction l as [|x l IH]; intros near H; [exact H|]. cbn [fold_left]. apply IH, g_In. left. exact H. Qed.
Lemma fold_grows l near x y : In x l -> In x near -> adj n x y -> In y (fold_left (fun near x => g x near) l near).
Proof.
  revert near; induction l as [|z l IH]; intros near Hx N H; [destruct Hx|]. cbn [fold_left]. destruct Hx as [->|Hx].
  - apply fold_more, g_In. right. auto.
  - apply IH; auto. apply g_In. left. exact N.
Qed.
Definition good (near : list Z) : Prop := forall y, In y near -> y = a \/ exists x, conn n L a x /\ adj n x y.
Lemma good0 : good near0.
Proof. intros y H. apply near0_In in H as [->|H]; [auto|]. right. exists a. split; [constructor|exact H]. Qed.
Lemma good_conn near x : good near -> In x near -> In x L -> conn n L a x.
Proof. intros G H I. destruct (G x H) as [->|(z & C & D)]; [constructor|]. exact (conn1 n L a z x C D I). Qed.
Lemma good_fold l : incl l L -> forall near, good near -> good (fold_left (fun near x => g x near) l near).
Proof.
  induction l as [|x l IH]; intros I near G; [exact G|]. cbn [fold_left]. apply IH; [intros z Hz; apply I; right; exact Hz|].
  intros y H. apply g_In in H as [H|[H D]]; [apply G, H|]. right. exists x. split; [|exact D]. apply (good_conn near); auto. apply I. left. reflexivity.
Qed.
Lemma good_iter m : good (A m).
Proof. induction m as [|m IH]; [exact good0|]. cbn [A Nat.iter]. apply good_fold; [apply incl_refl|exact IH]. Qed.
Definition closed (near : list Z) : Prop := forall x, conn n L a x -> In x near.
Definition hits (near : list Z) : nat := length (filter (fun x => memz x near) L).
Lemma hits_le l near near' : incl near near' -> (length (filter (fun x => memz x near) l) <= length (filter (fun x => memz x near') l))%nat /\
  (length (filter (fun x => memz x near) l) = length (filter (fun x => memz x near') l) -> forall x, In x l -> In x near' -> In x near).
Proof.
  intros I. induction l as [|x l [IH1 IH2]]; [split; [auto|intros _ x []]|]. cbn [filter].
  destruct (memz x near) eqn:E, (memz x near') eqn:E'; cbn [length].
  - split; [lia|]. intros H y [<-|Hy] Hn; [apply memz_In, E|apply IH2; auto].
  - exfalso. apply memz_In in E. apply I in E. apply memz_In in E. congruence.
  - split; [lia|]. intros H. exfalso. lia.
  - split; [exact IH1|]. intros H y [<-|Hy] Hn; [apply memz_In in Hn; congruence|apply IH2; auto].
Qed.
Lemma step_more near : incl near (step near). Proof. intros y H. apply fold_more, H. Qed.
Lemma a_in m : In a (A m).
Proof. induction m as [|m IH]; [apply near0_In; auto|]. cbn [A Nat.iter]. apply step_more, IH. Qed.
Lemma start_in m y : adj n a y -> In y (A m).
Proof. intros H. induction m as [|m IH]; [apply near0_In; auto|]. cbn [A Nat.iter]. apply step_more, IH. Qed.
Lemma conn_in x : conn n L a x -> x = a \/ In x L. Proof. intros H; destruct H; auto. Qed.
Lemma progress m : closed (A m) \/ (m <= hits (A m))%nat.
Proof.
  induction m as [|m [IH|IH]]; [right; lia| |].
  - left. intros x H. apply step_more, IH, H.
  - destruct (hits_le L (A m) (A (S m)) (step_more (A m))) as [Le Eq]. fold (hits (A m)) in *. fold (hits (A (S m))) in *.
    destruct (Nat.eq_dec (hits (A m)) (hits (A (S m)))) as [E|E]; [left|right; lia].
    intros y H. induction H as [|x y H IHc D I]; [apply a_in|]. destruct (conn_in x H) as [->|Ix]; [apply start_in, D|].
    cbn [A Nat.iter]. apply (fold_grows L (A m) x); [exact Ix|apply Eq; [exact E|exact Ix|exact IHc]|exact D].
Qed.
Lemma full_hits l near : length (filter (fun x => memz x near) l) = length l -> forall x, In x l -> In x near.
Proof.
  induction l as [|x l IH]; intros H y Hy; [destruct Hy|]. cbn [filter] in H. destruct (memz x near) eqn:E; cbn [length] in H.
  - destruct Hy as [<-|Hy]; [apply memz_In, E|apply IH; auto].
  - exfalso. assert (Q := filter_length_le (fun x => memz x near) l). lia.
Qed.
Lemma closure x : In x L -> (In x (A (length L)) <-> conn n L a x).
Proof.
  intros I. split; intros H; [apply (good_conn (A (length L))); auto using good_iter|].
  destruct (progress (length L)) as [C|C]; [apply C, H|]. apply (full_hits L); [|exact I]. unfold hits in C. assert (Q := filter_length_le (fun x => memz x (A (length L))) L). lia.
Qed.
Lemma closure_all f : (forall x, f x = memz x (A (length L))) -> (forallb f L = true <-> forall x, In x L -> conn n L a x).
Proof.
  intros F. rewrite forallb_forall. split; intros H x I; specialize (H x I).
  - rewrite F in H. apply memz_In in H. apply closure; assumption.
  - rewrite F. apply memz_In. apply closure; assumption.
Qed.
End Closure.

(* ---- connected sets of legs are consecutive ---- *)
Lemma leg_at_range n k j : 1 <= n -> 1 <= leg_at n k j <= n.
Proof. intros H. unfold leg_at. assert (0 <= (k - 1 + j) mod n < n) by (apply Z.mod_pos_bound; lia). lia. Qed.
Lemma leg_at_0 n k : 1 <= k <= n -> leg_at n k 0 = k.
Proof. intros H. unfold leg_at. rewrite Z.mod_small by lia. lia. Qed.
Lemma leg_at_add n k i j : 1 <= n -> leg_at n (leg_at n k i) j = leg_at n k (i + j).
Proof. intros H. unfold leg_at. replace ((k - 1 + i) mod n + 1 - 1 + j) with ((k - 1 + i) mod n + j) by lia. rewrite Z.add_mod_idemp_l by lia. f_equal. f_equal. lia. Qed.
Lemma leg_at_wrap n k j : 1 <= n -> leg_at n k (j + n) = leg_at n k j.
Proof. intros H. unfold leg_at. replace (k - 1 + (j + n)) with (k - 1 + j + 1 * n) by lia. rewrite Z.mod_add by lia. reflexivity. Qed.
Lemma adj_leg n x y : 1 <= x <= n -> 1 <= y <= n -> (adj n x y <-> y = leg_at n x 1 \/ y = leg_at n x (-1)).
Proof.
  intros X Y. unfold adj, leg_at.
  assert (U : (x - 1 + 1) mod n = if x =? n then 0 else x).
  { destruct (x =? n) eqn:E; [replace (x - 1 + 1) with (0 + 1 * n) by lia; rewrite Z.mod_add by lia; apply Z.mod_0_l; lia|rewrite Z.mod_small by lia; lia]. }
  assert (D : (x - 1 + -1) mod n = if x =? 1 then n - 1 else x - 2).
  { destruct (x =? 1) eqn:E; [replace (x - 1 + -1) with (n - 1 + (-1) * n) by lia; rewrite Z.mod_add by lia; apply Z.mod_small; lia|rewrite Z.mod_small by lia; lia]. }
  rewrite U, D. destruct (x =? n) eqn:E, (x =? 1) eqn:E'; lia.
Qed.
Lemma longest (P : Z -> Prop) (dec : forall j, {P j} + {~ P j}) (m : nat) : P 0 -> exists p, 0 <= p <= Z.of_nat m /\ (forall j, 0 <= j <= p -> P j) /\ (p = Z.of_nat m \/ ~ P (p + 1)).
Proof.
  intros P0. induction m as [|m (p & B & H & Q)]; [exists 0; split; [lia|]; split; [intros j J; replace j with 0 by lia; exact P0|left; reflexivity]|].
  destruct Q as [Q|Q]; [|exists p; split; [lia|]; auto].
  destruct (dec (p + 1)) as [Y|N].
  - exists (p + 1). split; [lia|]. split; [|left; lia]. intros j J. destruct (Z.eq_dec j (p + 1)) as [->|]; [exact Y|apply H; lia].
  - exists p. split; [lia|]. auto.
Qed.
Theorem connected_consecutive n X a : In a X -> (forall x, In x X -> 1 <= x <= n) -> ((forall x, In x X -> conn n X a x) <-> consecutive n X).
Proof.
  intros Ia R. assert (Ra := R a Ia). assert (N : 1 <= n) by lia. split.
  - intros C.
    destruct (longest (fun j => In (leg_at n a j) X) (fun j => in_dec Z.eq_dec _ X) (Z.to_nat (n - 1))) as (p & Bp & Hp & Mp); [rewrite leg_at_0; assumption|].
    destruct (longest (fun j => In (leg_at n a (- j)) X) (fun j => in_dec Z.eq_dec _ X) (Z.to_nat (n - 1))) as (q & Bq & Hq & Mq); [rewrite leg_at_0; assumption|].
    rewrite Z2Nat.id in * by lia.
    assert (K : forall x, conn n X a x -> exists j, - q <= j <= p /\ x = leg_at n a j).
    { intros x H. induction H as [|x y H (j & J & ->) D I]; [exists 0; split; [lia|rewrite leg_at_0; auto]|].
      apply adj_leg in D; [|apply leg_at_range, N|apply R, I]. rewrite !leg_at_add in D by exact N. destruct D as [-> | ->].
      - destruct (Z.eq_dec j p) as [->|Np]; [|exists (j + 1); split; [lia|reflexivity]].
        destruct Mp as [->|Mp]; [|contradiction]. exists 0. split; [lia|]. replace (n - 1 + 1) with (0 + n) by lia. apply leg_at_wrap, N.
      - destruct (Z.eq_dec j (- q)) as [->|Nq]; [|exists (j + -1); split; [lia|reflexivity]].
        destruct Mq as [->|Mq]; [|replace (- q + -1) with (- (q + 1)) in I by lia; contradiction]. exists 0. split; [lia|]. rewrite <- leg_at_wrap by exact N. f_equal. lia. }
    exists (leg_at n a (- q)), (p + q). split; [apply leg_at_range, N|]. split; [lia|]. intros x. split.
    + intros I. destruct (K x (C x I)) as (j & J & ->). exists (j + q). split; [lia|]. rewrite leg_at_add by exact N. f_equal. lia.
    + intros (j & J & ->). rewrite leg_at_add by exact N. destruct (Z_le_gt_dec q j) as [L|L].
      * apply Hp. lia.
      * replace (- q + j) with (- (q - j)) by lia. apply Hq. lia.
  - intros (k & m & Bk & Bm & H). apply H in Ia as (j0 & J0 & Ea).
    assert (In' : forall j, 0 <= j <= m -> In (leg_at n k j) X) by (intros j J; apply H; exists j; auto).
    assert (Up : forall i : nat, j0 + Z.of_nat i <= m -> conn n X a (leg_at n k (j0 + Z.of_nat i))).
    { induction i as [|i IH]; intros Hi; [rewrite Z.add_0_r, <- Ea; constructor|].
      apply (conn1 n X a (leg_at n k (j0 + Z.of_nat i))); [apply IH; lia| |apply In'; lia]. apply adj_leg; [apply leg_at_range, N..|]. left. rewrite leg_at_add by exact N. f_equal. lia. }
    assert (Dn : forall i : nat, 0 <= j0 - Z.of_nat i -> conn n X a (leg_at n k (j0 - Z.of_nat i))).
    { induction i as [|i IH]; intros Hi; [rewrite Z.sub_0_r, <- Ea; constructor|].
      apply (conn1 n X a (leg_at n k (j0 - Z.of_nat i))); [apply IH; lia| |apply In'; lia]. apply adj_leg; [apply leg_at_range, N..|]. right. rewrite leg_at_add by exact N. f_equal. lia. }
    intros x I. apply H in I as (j & J & ->). destruct (Z_le_gt_dec j0 j) as [L|L].
    + replace j with (j0 + Z.of_nat (Z.to_nat (j - j0))) by lia. apply Up. lia.
    + replace j with (j0 - Z.of_nat (Z.to_nat (j0 - j))) by lia. apply Dn. lia.
Qed.
(* the same with the start apart *)
Lemma conn_mono n X Y a x : incl X Y -> conn n X a x -> conn n Y a x.
Proof. intros I H. induction H as [|x y H IH D J]; [constructor|]. apply (conn1 n Y a x); auto. Qed.
Lemma conn_drop n X a x : conn n (a :: X) a x -> conn n X a x.
Proof. intros H. induction H as [|x y H IH D J]; [constructor|]. destruct J as [<-|J]; [constructor|]. apply (conn1 n X a x); auto. Qed.
Lemma connected_from n L a : (forall x, In x (a :: L) -> 1 <= x <= n) -> ((forall x, In x L -> conn n L a x) <-> consecutive n (a :: L)).
Proof.
  intros R. rewrite <- (connected_consecutive n (a :: L) a) by (auto; left; reflexivity). split.
  - intros H x [<-|I]; [constructor|]. apply (conn_mono n L); [intros y; apply in_cons|apply H, I].
  - intros H x I. apply conn_drop, H. right. exact I.
Qed.
Lemma consecutive_ext n X Y : (forall x, In x X <-> In x Y) -> consecutive n X -> consecutive n Y.
Proof. intros E (k & m & A & B & H). exists k, m. split; [exact A|]. split; [exact B|]. intros x. rewrite <- E. apply H. Qed.

(* ---- the tests of the code ---- *)
Lemma grow_In n x near y : In y (grow n x near) <-> In y near \/ (In x near /\ adj n x y).
Proof.
  unfold grow. destruct (memz x near) eqn:E.
  - rewrite in_app_iff, nearby_In. apply memz_In in E. tauto.
  - assert (~ In x near) by (intros H; apply memz_In in H; congruence). tauto.
Qed.
Lemma growing_In n x near y : In y (growing n x near) <-> In y near \/ (In x near /\ adj n x y).
Proof.
  unfold growing. destruct (memz x near) eqn:E.
  - rewrite !in_app_iff, nearby_In. apply memz_In in E. cbn [In]. intuition (subst; auto).
  - assert (~ In x near) by (intros H; apply memz_In in H; congruence). tauto.
Qed.
Lemma near_start n a y : In y ([a] ++ nearby n a) <-> y = a \/ adj n a y.
Proof. rewrite in_app_iff, nearby_In. cbn [In]. intuition. Qed.
Theorem needs_removing_spec n a bc d : (forall x, In x (a :: d :: bc) -> 1 <= x <= n) -> (needs_removing n a bc d = false <-> consecutive n (a :: d :: bc)).
Proof.
  intros R. rewrite <- connected_from by exact R.
  rewrite <- (closure_all n a (d :: bc) (growing n) ([a] ++ nearby n a) (near_start n a) (growing_In n) _ (fun x => eq_refl)).
  unfold needs_removing. cbn [forallb length fold_left]. rewrite orb_false_iff, !negb_false_iff, andb_true_iff. reflexivity.
Qed.
Theorem part_neighbouring_spec n a x y : (forall z, In z [a; x; y] -> 1 <= z <= n) -> (part_neighbouring n a [x; y] = true <-> consecutive n [a; x; y]).
Proof.
  intros R. rewrite <- connected_from by exact R.
  rewrite <- (closure_all n a [x; y] (grow n) ([a] ++ nearby n a) (near_start n a) (grow_In n) _ (fun x => eq_refl)).
  unfold part_neighbouring. cbn [forallb length fold_left Nat.iter nth]. rewrite andb_true_r. reflexivity.
Qed.
Theorem check_neighbouring_spec n X : X <> [] -> (forall x, In x X -> 1 <= x <= n) -> (check_neighbouring n X = true <-> consecutive n X).
Proof.
  intros N R. destruct X as [|a X]; [congruence|]. set (L := a :: X) in *. rewrite <- (connected_consecutive n L a) by (auto; left; reflexivity).
  assert (S : forall y, In y ([a; a - 1; a + 1] ++ (if a =? n then [1] else []) ++ (if a =? 1 then [n] else [])) <-> y = a \/ adj n a y).
  { intros y. unfold adj. rewrite !in_app_iff. cbn [In]. destruct (a =? n) eqn:A, (a =? 1) eqn:B; cbn [In]; lia. }
  rewrite <- (closure_all n a L (grow n) _ S (grow_In n) _ (fun x => eq_refl)). reflexivity.
Qed.

(* ---- the restricted lists ---- *)
Lemma and_iff_compat_l_In (P Q R : Prop) : (P -> (Q <-> R)) -> (P /\ Q <-> P /\ R). Proof. tauto. Qed.
Theorem purge3_spec n l : gen_N n 3 = Ok l -> forall b, In b (purge3 n l) <-> In b l /\ near_three n b.
Proof.
  intros E b. unfold purge3. rewrite filter_In. apply and_iff_compat_l_In. intros Hb.
  destruct (three_once n) as (l' & E' & _ & W & _). rewrite E in E'. injection E' as <-.
  destruct (W b Hb) as (i & S & j & T & -> & Hi & Hj & Sh & _). unfold mid0. cbn [b_i b_j b_mid nth].
  destruct Sh as ([Ss Fs] & [St Ft] & Sh). rewrite Forall_forall in Fs, Ft.
  assert (C : forall T', legset n T' -> (forall x, In x T' <-> (1 <= x <= n /\ x <> i /\ x <> j /\ ~ In x S)) ->
    (consecutive n (i :: j :: T') <-> consecutive n (i :: j :: complementary n (S ++ [i; j])))).
  { intros T' [_ L] H. rewrite Forall_forall in L. assert (Q : forall x, In x (i :: j :: T') <-> In x (i :: j :: complementary n (S ++ [i; j]))).
    { intros x. cbn [In]. unfold complementary. rewrite filter_In, zrange_In, negb_true_iff, H. assert (M := memz_In x (S ++ [i; j])). rewrite in_app_iff in M. cbn [In] in M.
      destruct (memz x (S ++ [i; j])); split; intros K; intuition (try lia; try discriminate). }
    split; apply consecutive_ext; intros x; [|symmetry]; apply Q. }
  assert (R1 : forall x, In x (i :: j :: S) -> 1 <= x <= n) by (intros x [<-|[<-|H]]; auto).
  assert (R2 : forall x, In x (i :: j :: complementary n (S ++ [i; j])) -> 1 <= x <= n).
  { intros x [<-|[<-|H]]; auto. unfold complementary in H. apply filter_In in H as [H _]. apply zrange_In in H. lia. }
  rewrite negb_true_iff, andb_false_iff, (needs_removing_spec n i S j R1), (needs_removing_spec n i _ j R2). unfold near_three. cbn [b_i b_j b_mid]. split.
  - intros H. exists S, T. split; [reflexivity|]. split; [split; [split; [exact Ss|apply Forall_forall, Fs]|split; [split; [exact St|apply Forall_forall, Ft]|exact Sh]]|].
    destruct H as [H|H]; [auto|]. right. apply C; [split; [exact St|apply Forall_forall, Ft]| |exact H]. intros x. specialize (Sh x). specialize (Ft x). intuition.
  - intros (S' & T' & [= <-] & (_ & L & Sh') & [H|H]); [auto|]. right. apply C in H; [exact H|exact L|]. destruct L as [_ L]. rewrite Forall_forall in L. intros x. specialize (Sh' x). specialize (L x). intuition.
Qed.
Lemma minimal_two p : (2 <= length p)%nat -> (forall x, In x p -> 1 <= x <= 9) -> (length (joinp (lit "+") (map dec p)) <=? 3)%nat = true -> exists x y, p = [x; y].
Proof.
  intros L R H. destruct p as [|x [|y p]]; cbn [length] in L; try lia. exists x, y. destruct p as [|z p]; [reflexivity|]. exfalso. apply Nat.leb_le in H.
  assert (X := dec_len x ltac:(specialize (R x); cbn in R; lia)). assert (Y := dec_len y ltac:(specialize (R y); cbn in R; lia)). assert (Z := dec_len z ltac:(specialize (R z); cbn in R; lia)).
  change (joinp (lit "+") (map dec (x :: y :: z :: p))) with (dec x ++ lit "+" ++ dec y ++ lit "+" ++ joinp (lit "+") (dec z :: map dec p)) in H.
  rewrite !app_length, X, Y in H. change (length (lit "+")) with 1%nat in H. destruct (map dec p); [change (joinp (lit "+") [dec z]) with (dec z) in H|cbn [joinp] in H; rewrite app_length in H]; lia.
Qed.
Lemma two_minimal x y : 1 <= x <= 9 -> 1 <= y <= 9 -> (length (joinp (lit "+") (map dec [x; y])) <=? 3)%nat = true.
Proof. intros X Y. cbn [map joinp]. rewrite !app_length, !dec_len by lia. reflexivity. Qed.
Lemma beside_range n a x : In x (beside n a 0) -> 1 <= x <= n. Proof. intros H. apply beside_In in H. tauto. Qed.
Theorem purge4_spec n l l' : n <= 9 -> (forall b, In b l -> good4 n b) -> purge4 n true l = Ok l' -> forall b, In b l' <-> In b l /\ near_four n b.
Proof.
  intros N G E b. unfold purge4 in E. injection E as <-. rewrite filter_In. apply and_iff_compat_l_In. intros Hb.
  destruct (G b Hb) as (s & s' & M & Hi & Hj & _ & _ & _ & I1 & I2 & L1 & L2).
  unfold minimal, neighbouring, near_four, mid0, mid1. rewrite M. cbn [nth forallb]. rewrite andb_true_r, !andb_true_iff. split.
  - intros ((H1 & H2) & H3 & H4). apply minimal_two in H1 as (w & x & ->); [|lia|intros z Hz; apply I1, beside_range in Hz; lia].
    apply minimal_two in H2 as (y & z & ->); [|lia|intros u Hu; apply I2, beside_range in Hu; lia]. exists w, x, y, z. split; [reflexivity|].
    assert (R1 : forall u, In u [b_i b; w; x] -> 1 <= u <= n) by (intros u [<-|Hu]; [lia|apply (beside_range n (b_i b)), I1, Hu]).
    assert (R2 : forall u, In u [b_j b; y; z] -> 1 <= u <= n) by (intros u [<-|Hu]; [lia|apply (beside_range n (b_j b)), I2, Hu]).
    split; apply part_neighbouring_spec; assumption.
  - intros (w & x & y & z & [= -> ->] & C1 & C2).
    assert (R1 : forall u, In u [b_i b; w; x] -> 1 <= u <= n) by (intros u [<-|Hu]; [lia|apply (beside_range n (b_i b)), I1, Hu]).
    assert (R2 : forall u, In u [b_j b; y; z] -> 1 <= u <= n) by (intros u [<-|Hu]; [lia|apply (beside_range n (b_j b)), I2, Hu]).
    assert (forall u, In u [w; x; y; z] -> 1 <= u <= 9) by (intros u Hu; cbn [In] in *; assert (1 <= u <= n) by (destruct Hu as [<-|[<-|[<-|[<-|[]]]]]; auto); lia).
    split; [split; apply two_minimal; cbn [In] in *; auto 6|]. split; apply part_neighbouring_spec; assumption.
Qed.

(* ---- five brackets ---- *)
Lemma run_length n k m : length (run n k m) = m. Proof. unfold run. rewrite map_length, seq_length. reflexivity. Qed.
Lemma seq_plus p q : seq p q = map (fun j => (p + j)%nat) (seq 0 q).
Proof. induction p as [|p IH]; [symmetry; apply map_id|]. rewrite <- seq_shift, IH, map_map. reflexivity. Qed.
Lemma run_app n k p q : 1 <= n -> run n k (p + q) = run n k p ++ run n (leg_at n k (Z.of_nat p)) q.
Proof.
  intros N. unfold run. rewrite seq_app, map_app. f_equal. cbn [plus]. rewrite (seq_plus p q), map_map. apply map_ext. intros j. rewrite leg_at_add by exact N. f_equal. lia.
Qed.
Lemma run_In n k m x : In x (run n k m) <-> exists j, 0 <= j < Z.of_nat m /\ x = leg_at n k j.
Proof.
  unfold run. rewrite in_map_iff. split.
  - intros (j & <- & H). apply in_seq in H. exists (Z.of_nat j). split; [lia|reflexivity].
  - intros (j & H & ->). exists (Z.to_nat j). split; [f_equal; lia|apply in_seq; lia].
Qed.
Lemma run_consecutive n k m : 1 <= k <= n -> (0 < m)%nat -> consecutive n (run n k m).
Proof. intros K M. exists k, (Z.of_nat m - 1). split; [exact K|]. split; [lia|]. intros x. rewrite run_In. split; intros (j & J & ->); exists j; split; auto; lia. Qed.
Lemma leg_at_inj n k j j' : 1 <= n -> 0 <= j < n -> 0 <= j' < n -> leg_at n k j = leg_at n k j' -> j = j'.
Proof.
  intros N J J' E. unfold leg_at in E. assert (E' : (k - 1 + j) mod n = (k - 1 + j') mod n) by lia.
  assert (D : (j - j') mod n = 0). { replace (j - j') with (k - 1 + j - (k - 1 + j')) by lia. rewrite Zminus_mod, E', Z.sub_diag. apply Z.mod_0_l. lia. }
  apply Z.mod_divide in D; [|lia]. destruct D as (c & D). assert (c = 0) by nia. lia.
Qed.
Lemma leg_at_reach n k x : 1 <= k <= n -> 1 <= x <= n -> exists j, 0 <= j < n /\ x = leg_at n k j.
Proof.
  intros K X. exists ((x - k) mod n). split; [apply Z.mod_pos_bound; lia|]. unfold leg_at. rewrite Z.add_mod_idemp_r by lia. replace (k - 1 + (x - k)) with (x - 1) by lia. rewrite Z.mod_small by lia. lia.
Qed.
(* legs that stand next to each other do not jump over one *)
Lemma no_jump n X i z : 1 <= i <= n -> ~ In i X -> In (leg_at n i (-1)) X -> In (leg_at n i 1) X -> 1 <= z <= n -> z <> i -> ~ In z X -> ~ consecutive n X.
Proof.
  intros Hi Ni D U Hz Nz NzX (k & m & K & M & H). assert (N : 1 <= n) by lia.
  destruct (leg_at_reach n k i K Hi) as (j0 & J0 & E0).
  assert (L0 : m < j0). { destruct (Z_lt_le_dec m j0) as [|L]; [assumption|]. exfalso. apply Ni, H. exists j0. split; [lia|exact E0]. }
  rewrite E0 in U, D. rewrite leg_at_add in U, D by exact N.
  assert (E1 : j0 = n - 1).
  { destruct (Z.eq_dec j0 (n - 1)) as [|Q]; [assumption|]. exfalso. apply H in U as (j & J & E). apply leg_at_inj in E; lia. }
  apply H in D as (j & J & E). apply leg_at_inj in E; [|lia..]. destruct (leg_at_reach n k z K Hz) as (jz & Jz & Ez).
  apply NzX, H. exists jz. split; [|exact Ez]. assert (jz <> j0) by (intros ->; apply Nz; congruence). lia.
Qed.

(* rotations *)
Lemma app_eq_app_length {A} (a b c d : list A) : a ++ b = c ++ d -> length a = length c -> a = c /\ b = d.
Proof. revert c; induction a as [|x a IH]; intros [|y c] E L; try discriminate; [auto|]. cbn [app] in E. injection E as -> E. destruct (IH c E) as [-> ->]; auto. Qed.
Lemma iter_succ_r {A} m (f : A -> A) x : Nat.iter (S m) f x = Nat.iter m f (f x).
Proof. induction m as [|m IH]; [reflexivity|]. change (Nat.iter (S (S m)) f x) with (f (Nat.iter (S m) f x)). rewrite IH. reflexivity. Qed.
Lemma rotate_app X Y : Nat.iter (length X) rotate1 (X ++ Y) = Y ++ X.
Proof.
  revert Y; induction X as [|x X IH]; intros Y; [symmetry; apply app_nil_r|]. cbn [length]. rewrite iter_succ_r. cbn [rotate1 app]. rewrite <- app_assoc, IH, <- app_assoc. reflexivity.
Qed.
Definition rotation (L U : list Z) : Prop := exists X Y, L = X ++ Y /\ U = Y ++ X /\ Y <> [].
Lemma rotation_iff L U : (exists kk, In kk (seq 0 (length L)) /\ U = Nat.iter kk rotate1 L) <-> rotation L U.
Proof.
  split.
  - intros (kk & H & ->). apply in_seq in H. exists (firstn kk L), (skipn kk L). split; [symmetry; apply firstn_skipn|]. split.
    + assert (Q := rotate_app (firstn kk L) (skipn kk L)). rewrite firstn_length_le, firstn_skipn in Q by lia. exact Q.
    + intros E. apply (f_equal (@length Z)) in E. rewrite skipn_length in E. cbn [length] in E. lia.
  - intros (X & Y & -> & -> & N). exists (length X). split; [|symmetry; apply rotate_app]. apply in_seq. rewrite app_length. destruct Y; [congruence|]. cbn [length]. lia.
Qed.
Lemma rotation_swap P Q U : rotation (P ++ Q) U -> rotation (Q ++ P) U.
Proof.
  intros (X & Y & E & -> & N). apply app_eq_app in E as (l & [[-> ->]|[-> ->]]).
  - destruct l as [|x l].
    + exists [], (Q ++ X). rewrite !app_nil_r. cbn [app]. split; [reflexivity|]. split; [reflexivity|]. destruct Q; [exfalso; apply N; reflexivity|discriminate].
    + exists (Q ++ X), (x :: l). rewrite <- !app_assoc. split; [reflexivity|]. split; [reflexivity|discriminate].
  - exists l, (Y ++ P). rewrite <- !app_assoc. split; [reflexivity|]. split; [reflexivity|]. destruct Y; [congruence|discriminate].
Qed.

(* the legs other than i, in the order in which they follow i *)
Definition after_leg (n i : Z) : list Z := run n (leg_at n i 1) (Z.to_nat (n - 1)).
Lemma zrange_run n k m : 1 <= k -> k + Z.of_nat m - 1 <= n -> zrange k (k + Z.of_nat m) = run n k m.
Proof.
  intros K M. unfold zrange, run. replace (Z.to_nat (k + Z.of_nat m - k)) with m by lia. apply map_ext_in. intros j J. apply in_seq in J. unfold leg_at. rewrite Z.mod_small by lia. lia.
Qed.
Lemma after_leg_eq n i : 1 <= i <= n -> after_leg n i = zrange (i + 1) (n + 1) ++ zrange 1 i.
Proof.
  intros H. unfold after_leg. replace (Z.to_nat (n - 1)) with (Z.to_nat (n - i) + Z.to_nat (i - 1))%nat by lia. rewrite run_app, leg_at_add by lia. f_equal.
  - replace (n + 1) with (i + 1 + Z.of_nat (Z.to_nat (n - i))) by lia. destruct (Z.eq_dec i n) as [->|Ne]; [replace (Z.to_nat (n - n)) with 0%nat by lia; unfold zrange; replace (n + 1 + Z.of_nat 0 - (n + 1)) with 0 by lia; reflexivity|].
    rewrite (zrange_run n) by lia. f_equal. unfold leg_at. rewrite Z.mod_small by lia. lia.
  - assert (Q := zrange_run n 1 (Z.to_nat (i - 1)) ltac:(lia) ltac:(lia)). replace (1 + Z.of_nat (Z.to_nat (i - 1))) with i in Q by lia. rewrite Q. f_equal. unfold leg_at. replace (i - 1 + (1 + Z.of_nat (Z.to_nat (n - i)))) with (0 + 1 * n) by lia. rewrite Z.mod_add, Z.mod_0_l by lia. reflexivity.
Qed.
Lemma filter_all {A} (f : A -> bool) l : (forall x, In x l -> f x = true) -> filter f l = l.
Proof. induction l as [|x l IH]; intros H; [reflexivity|]. cbn [filter]. rewrite (H x (or_introl eq_refl)), IH; [reflexivity|]. intros y Hy. apply H. right. exact Hy. Qed.
Lemma zrange_split a b c : a <= b <= c -> zrange a c = zrange a b ++ zrange b c.
Proof.
  intros H. unfold zrange. replace (Z.to_nat (c - a)) with (Z.to_nat (b - a) + Z.to_nat (c - b))%nat by lia. rewrite seq_app, map_app. f_equal. cbn [plus]. rewrite seq_plus, map_map. apply map_ext. intros j. lia.
Qed.
Lemma without_eq n i : 1 <= i <= n -> filter (fun x => negb (x =? i)) (zrange 1 (n + 1)) = zrange 1 i ++ zrange (i + 1) (n + 1).
Proof.
  intros H. rewrite (zrange_split 1 i (n + 1)), (zrange_split i (i + 1) (n + 1)), !filter_app by lia. f_equal; [apply filter_all; intros x X; apply zrange_In in X; lia|].
  assert (E : zrange i (i + 1) = [i]) by (unfold zrange; replace (Z.to_nat (i + 1 - i)) with 1%nat by lia; cbn; f_equal; lia). rewrite E. cbn [filter]. rewrite Z.eqb_refl. cbn [negb app]. apply filter_all. intros x X. apply zrange_In in X. lia.
Qed.
Lemma legs_rotations n i U : 1 <= i <= n -> ((exists kk, In kk (seq 0 (length (filter (fun x => negb (x =? i)) (zrange 1 (n + 1))))) /\ U = Nat.iter kk rotate1 (filter (fun x => negb (x =? i)) (zrange 1 (n + 1)))) <-> rotation (after_leg n i) U).
Proof. intros H. rewrite rotation_iff, without_eq, after_leg_eq by exact H. split; apply rotation_swap. Qed.
Lemma after_leg_In n i x : 1 <= i <= n -> (In x (after_leg n i) <-> 1 <= x <= n /\ x <> i).
Proof. intros H. rewrite after_leg_eq, in_app_iff, !zrange_In by exact H. lia. Qed.
Lemma after_leg_NoDup n i : 1 <= i <= n -> NoDup (after_leg n i).
Proof.
  intros H. rewrite after_leg_eq by exact H. apply NoDup_app''; [apply zrange_NoDup..|]. intros x X Y. apply zrange_In in X, Y. lia.
Qed.
Lemma after_leg_length n i : 1 <= i <= n -> length (after_leg n i) = Z.to_nat (n - 1). Proof. intros H. apply run_length. Qed.
Lemma after_leg_first n i : 1 <= i <= n -> forall X Y, after_leg n i = X ++ Y -> X <> [] -> In (leg_at n i 1) X.
Proof.
  intros H X Y E N. unfold after_leg in E. destruct X as [|x X]; [congruence|]. destruct (Z.to_nat (n - 1)) as [|m]; [discriminate|]. cbn [run seq map] in E. injection E as <- _. left. rewrite leg_at_add by lia. reflexivity.
Qed.
Lemma after_leg_last n i : 1 <= i <= n -> forall X Y, after_leg n i = X ++ Y -> Y <> [] -> In (leg_at n i (-1)) Y.
Proof.
  intros H X Y E N. unfold after_leg in E. destruct (Z.to_nat (n - 1)) as [|m] eqn:M; [destruct X, Y; try congruence; discriminate|].
  replace (S m) with (m + 1)%nat in E by lia. rewrite run_app in E by lia. destruct (exists_last N) as (Y' & y & ->). rewrite app_assoc in E. cbn [run seq map] in E. apply app_inj_tail in E as [_ E].
  apply in_app_iff. right. left. rewrite <- E, !leg_at_add by lia. replace (1 + (Z.of_nat m + Z.of_nat 0)) with (-1 + n) by lia. apply leg_at_wrap. lia.
Qed.
(* a part that crosses the place of i is not consecutive *)
Lemma crossing n i F S0 M W : 1 <= i <= n -> after_leg n i = F ++ S0 -> incl M (after_leg n i) -> In (leg_at n i (-1)) M -> In (leg_at n i 1) M -> In W (after_leg n i) -> ~ In W M -> check_neighbouring n M = true -> False.
Proof.
  intros H E I D U IW NW C. apply check_neighbouring_spec in C; [|intros ->; destruct D|intros x X; apply I, after_leg_In in X; tauto]. revert C.
  apply after_leg_In in IW; [|exact H]. apply (no_jump n M i W); try tauto. intros Q. apply I, after_leg_In in Q; tauto.
Qed.
Lemma set_diff_front X Y : NoDup (X ++ Y) -> set_diff (X ++ Y) X = Y.
Proof.
  intros N. unfold set_diff. rewrite filter_app.
  assert (E1 : filter (fun x => negb (memz x X)) X = []).
  { assert (H : forall l, incl l X -> filter (fun x => negb (memz x X)) l = []); [|apply H, incl_refl]. induction l as [|x l IH]; intros I; [reflexivity|]. cbn [filter].
    assert (M : memz x X = true) by (apply memz_In, I; left; reflexivity). rewrite M. cbn [negb]. apply IH. intros y Hy. apply I. right. exact Hy. }
  rewrite E1. cbn [app]. apply filter_all. intros x H. apply negb_true_iff. destruct (memz x X) eqn:M; [|reflexivity]. exfalso. apply memz_In in M. revert x H M.
  clear E1. induction X as [|y X IH]; [intros x _ []|]. cbn [app] in N. inversion N as [|? ? N1 N2]; subst. intros x H [->|M]; [apply N1, in_app_iff; auto|exact (IH N2 x H M)].
Qed.
Lemma generate_5_In iset n b : In b (generate_5 iset n) <-> exists i m1 m2 m3, 1 <= i <= n /\ rotation (after_leg n i) (m1 ++ m2 ++ m3) /\ (2 <= length m1)%nat /\ (2 <= length m2)%nat /\ (2 <= length m3)%nat /\
  check_neighbouring n m1 = true /\ check_neighbouring n m2 = true /\ check_neighbouring n (iset m3) = true /\ b = Brk true i [m1; m2; iset m3] i.
Proof.
  assert (Cut : forall i j k, 1 <= i <= n -> forall U, rotation (after_leg n i) U -> 2 <= j < n - 4 -> 2 <= k < n - 2 - j ->
    let m1 := firstn (Z.to_nat j) U in let m2 := firstn (Z.to_nat k) (skipn (Z.to_nat j) U) in let m3 := set_diff (set_diff U m1) m2 in
    U = m1 ++ m2 ++ m3 /\ Z.of_nat (length m1) = j /\ Z.of_nat (length m2) = k /\ Z.of_nat (length m3) = n - 1 - j - k).
  { intros i j k Hi U R Hj Hk m1 m2 m3. assert (LU : length U = Z.to_nat (n - 1)) by (destruct R as (X & Y & E & -> & _); rewrite <- (after_leg_length n i Hi), E, !app_length; lia).
    assert (NU : NoDup U). { destruct R as (X & Y & E & -> & _). assert (N := after_leg_NoDup n i Hi). rewrite E in N. apply (Permutation.Permutation_NoDup (Permutation.Permutation_app_comm X Y) N). }
    assert (E1 : U = m1 ++ m2 ++ skipn (Z.to_nat k) (skipn (Z.to_nat j) U)) by (unfold m1, m2; rewrite !firstn_skipn; reflexivity).
    assert (E2 : m3 = skipn (Z.to_nat k) (skipn (Z.to_nat j) U)).
    { unfold m3. rewrite E1 at 1. rewrite set_diff_front by (rewrite <- E1; exact NU). apply set_diff_front. rewrite E1 in NU. clear -NU. induction m1 as [|x m IH]; [exact NU|]. inversion NU; auto. }
    split; [rewrite E2; exact E1|]. split; [unfold m1; rewrite firstn_length; lia|]. split; [unfold m2; rewrite firstn_length, skipn_length; lia|]. rewrite E2, !skipn_length. lia. }
  unfold generate_5. rewrite in_flat_map. split.
  - intros (i & Hi & H). apply zrange_In in Hi. apply in_flat_map in H as (kk & Hkk & H). apply in_flat_map in H as (j & Hj & H). apply zrange_In in Hj.
    set (U := Nat.iter kk rotate1 _) in H. assert (R : rotation (after_leg n i) U) by (apply legs_rotations; [lia|]; exists kk; auto).
    destruct (negb (check_neighbouring n (firstn (Z.to_nat j) U))) eqn:C1; [destruct H|]. apply negb_false_iff in C1. apply in_flat_map in H as (k & Hk & H). apply zrange_In in Hk.
    destruct (negb (check_neighbouring n (firstn (Z.to_nat k) _))) eqn:C2; [destruct H|]. apply negb_false_iff in C2.
    destruct (negb (check_neighbouring n (iset _))) eqn:C3; [destruct H|]. apply negb_false_iff in C3. destruct H as [<-|[]].
    destruct (Cut i j k ltac:(lia) U R ltac:(lia) ltac:(lia)) as (E & L1 & L2 & L3). eexists i, _, _, _. split; [lia|]. split; [rewrite E in R; exact R|]. repeat (split; [first [exact C1|exact C2|exact C3|lia]|]). reflexivity.
  - intros (i & m1 & m2 & m3 & Hi & R & L1 & L2 & L3 & C1 & C2 & C3 & ->). exists i. split; [apply zrange_In; lia|].
    assert (LU : (length m1 + length m2 + length m3 = Z.to_nat (n - 1))%nat). { destruct R as (X & Y & E & E' & _). apply (f_equal (@length Z)) in E, E'. rewrite after_leg_length in E by lia. rewrite !app_length in *. lia. }
    apply in_flat_map. assert (R' := R). apply legs_rotations in R' as (kk & Hkk & E); [|lia]. exists kk. split; [exact Hkk|]. rewrite <- E. apply in_flat_map. exists (Z.of_nat (length m1)). split; [apply zrange_In; lia|].
    destruct (Cut i (Z.of_nat (length m1)) (Z.of_nat (length m2)) ltac:(lia) _ R ltac:(lia) ltac:(lia)) as (E1 & D1 & D2 & D3).
    rewrite !Nat2Z.id in *. assert (F1 : firstn (length m1) (m1 ++ m2 ++ m3) = m1) by (rewrite firstn_app, Nat.sub_diag, firstn_all; cbn [firstn]; apply app_nil_r).
    assert (F2 : skipn (length m1) (m1 ++ m2 ++ m3) = m2 ++ m3) by (rewrite skipn_app, Nat.sub_diag, skipn_all; reflexivity).
    rewrite F1, C1. cbn [negb]. apply in_flat_map. exists (Z.of_nat (length m2)). split; [apply zrange_In; lia|]. rewrite F2, Nat2Z.id.
    assert (F3 : firstn (length m2) (m2 ++ m3) = m2) by (rewrite firstn_app, Nat.sub_diag, firstn_all; cbn [firstn]; apply app_nil_r). rewrite F1, F2, F3 in E1. rewrite F3, C2. cbn [negb].
    apply app_inv_head in E1. apply app_inv_head in E1. rewrite <- E1, C3. left. reflexivity.
Qed.
Lemma seam n i m1 m2 m3 : 1 <= i <= n -> rotation (after_leg n i) (m1 ++ m2 ++ m3) -> m1 <> [] -> m2 <> [] -> m3 <> [] ->
  check_neighbouring n m1 = true -> check_neighbouring n m2 = true -> check_neighbouring n m3 = true ->
  after_leg n i = m1 ++ m2 ++ m3 \/ after_leg n i = m3 ++ m1 ++ m2 \/ after_leg n i = m2 ++ m3 ++ m1.
Proof.
  intros Hi (F & S0 & E & EU & NS) N1 N2 N3 C1 C2 C3.
  destruct F as [|f F']; [left; rewrite app_nil_r in EU; rewrite E; symmetry; exact EU|]. set (F := f :: F') in *. assert (NF : F <> []) by discriminate.
  assert (DU : NoDup (m1 ++ m2 ++ m3)). { assert (N := after_leg_NoDup n i Hi). rewrite E in N. rewrite EU. apply (Permutation.Permutation_NoDup (Permutation.Permutation_app_comm F S0) N). }
  assert (IU : forall x, In x (m1 ++ m2 ++ m3) <-> In x (after_leg n i)) by (intros x; rewrite E, EU, !in_app_iff; tauto).
  assert (First : forall X Y, F = X ++ Y -> X <> [] -> In (leg_at n i 1) X) by (intros X Y EF NX; apply (after_leg_first n i Hi X (Y ++ S0)); [rewrite E, EF, app_assoc; reflexivity|exact NX]).
  assert (Last : forall X Y, S0 = X ++ Y -> Y <> [] -> In (leg_at n i (-1)) Y) by (intros X Y ES NY; apply (after_leg_last n i Hi (F ++ X) Y); [rewrite E, ES, app_assoc; reflexivity|exact NY]).
  assert (Apart : forall (l1 l2 : list Z) (x : Z), NoDup (l1 ++ l2) -> In x l1 -> In x l2 -> False).
  { induction l1 as [|y l1 IH]; intros l2 x N H H'; [destruct H|]. cbn [app] in N. inversion N as [|? ? Na Nb]; subst. destruct H as [->|H]; [apply Na, in_app_iff; auto|exact (IH l2 x Nb H H')]. }
  assert (Cross : forall M w, incl M (m1 ++ m2 ++ m3) -> In (leg_at n i (-1)) M -> In (leg_at n i 1) M -> In w (m1 ++ m2 ++ m3) -> ~ In w M -> check_neighbouring n M = true -> False).
  { intros M w IM A B Hw NW C. apply (crossing n i F S0 M w Hi E); auto; [intros x Hx; apply IU, IM, Hx|apply IU, Hw]. }
  symmetry in EU. apply app_eq_app in EU as (l & [[E1 E2]|[E1 E2]]).
  - (* S0 = m1 ++ l, m2 ++ m3 = l ++ F *)
    apply app_eq_app in E2 as (l' & [[E3 E4]|[E3 E4]]).
    + (* m2 = l ++ l', F = l' ++ m3 *)
      destruct l' as [|x l']; [|destruct l as [|y l]].
      * cbn [app] in E4. rewrite app_nil_r in E3. right. left. rewrite E, E1, E4, E3. reflexivity.
      * cbn [app] in E3. rewrite app_nil_r in E1. right. right. rewrite E, E1, E4, E3, <- app_assoc. reflexivity.
      * exfalso. destruct m1 as [|w m1]; [congruence|]. apply (Cross m2 w); auto.
        -- intros z Hz. apply in_app_iff. right. apply in_app_iff. auto.
        -- rewrite E3. apply in_app_iff. left. apply (Last (w :: m1) (y :: l)); [exact E1|discriminate].
        -- rewrite E3. apply in_app_iff. right. apply (First (x :: l') m3); [exact E4|discriminate].
        -- left. reflexivity.
        -- intros H. apply (Apart (w :: m1) (m2 ++ m3) w DU); [left; reflexivity|apply in_app_iff; auto].
    + (* l = m2 ++ l', m3 = l' ++ F *)
      destruct l' as [|x l'].
      * cbn [app] in E4. rewrite app_nil_r in E3. right. left. rewrite E, E1, E4, E3. reflexivity.
      * exfalso. destruct m1 as [|w m1]; [congruence|]. apply (Cross m3 w); auto.
        -- intros z Hz. apply in_app_iff. right. apply in_app_iff. auto.
        -- rewrite E4. apply in_app_iff. left. apply (Last ((w :: m1) ++ m2) (x :: l')); [rewrite E1, E3, app_assoc; reflexivity|discriminate].
        -- rewrite E4. apply in_app_iff. right. apply (First F []); [rewrite app_nil_r; reflexivity|exact NF].
        -- left. reflexivity.
        -- intros H. apply (Apart (w :: m1) (m2 ++ m3) w DU); [left; reflexivity|apply in_app_iff; auto].
  - (* m1 = S0 ++ l, F = l ++ m2 ++ m3 *)
    destruct l as [|x l].
    + rewrite app_nil_r in E1. cbn [app] in E2. right. right. rewrite E, E2, E1, <- app_assoc. reflexivity.
    + exfalso. destruct m2 as [|w m2]; [congruence|]. apply (Cross m1 w); auto.
      * intros z Hz. apply in_app_iff. auto.
      * rewrite E1. apply in_app_iff. left. apply (Last [] S0); [reflexivity|exact NS].
      * rewrite E1. apply in_app_iff. right. apply (First (x :: l) ((w :: m2) ++ m3)); [exact E2|discriminate].
      * apply in_app_iff. right. left. reflexivity.
      * intros H. apply (Apart m1 ((w :: m2) ++ m3) w DU); [exact H|left; reflexivity].
Qed.
Lemma three_runs_iff n i A B C : 1 <= i <= n -> (three_runs n i A B C <-> after_leg n i = A ++ B ++ C /\ (2 <= length A)%nat /\ (2 <= length B)%nat /\ (2 <= length C)%nat).
Proof.
  intros Hi. unfold three_runs, after_leg. split.
  - intros (p & q & r & P & Q & R & L & -> & -> & ->). rewrite !run_length. split; [|auto]. replace (Z.to_nat (n - 1)) with (p + (q + r))%nat by lia. rewrite !run_app, !leg_at_add by lia. do 2 f_equal. f_equal. f_equal. lia.
  - intros (E & P & Q & R). exists (length A), (length B), (length C). assert (L := f_equal (@length Z) E). rewrite run_length, !app_length in L. split; [exact P|]. split; [exact Q|]. split; [exact R|]. split; [lia|].
    replace (Z.to_nat (n - 1)) with (length A + (length B + length C))%nat in E by lia. rewrite !run_app, !leg_at_add in E by lia.
    apply app_eq_app_length in E as [E1 E]; [|rewrite run_length; reflexivity]. apply app_eq_app_length in E as [E2 E3]; [|rewrite run_length; reflexivity]. split; [symmetry; exact E1|]. split; [symmetry; exact E2|]. etransitivity; [symmetry; exact E3|]. f_equal. f_equal. lia.
Qed.
Theorem gen_5_spec iset n b : keeps_legs iset -> (In b (gen_5 iset n) <-> exists i A B C, 1 <= i <= n /\ three_runs n i A B C /\
  (b = Brk true i [A; B; iset C] i \/ b = Brk true i [B; C; iset A] i \/ b = Brk true i [C; A; iset B] i)).
Proof.
  intros K.
  assert (Ck : forall m, m <> [] -> (forall x, In x m -> 1 <= x <= n) -> check_neighbouring n (iset m) = check_neighbouring n m).
  { intros m Nm Rm. assert (P := K m). assert (Q : forall x, In x (iset m) <-> In x m) by (intros x; split; apply Permutation.Permutation_in; [|symmetry]; exact P).
    apply eq_true_iff_eq. rewrite !check_neighbouring_spec; auto.
    - split; apply consecutive_ext; intros x; [|symmetry]; apply Q.
    - intros E. rewrite E in P. apply Permutation.Permutation_nil in P. congruence.
    - intros x Hx. apply Rm, Q, Hx. }
  assert (G : In b (gen_5 iset n) <-> In b (generate_5 iset n) /\ 7 <= n). { unfold gen_5. destruct (Z.geb_spec n 7); cbn [In]; intuition lia. }
  rewrite G, generate_5_In. split.
  - intros ((i & m1 & m2 & m3 & Hi & R & L1 & L2 & L3 & C1 & C2 & C3 & ->) & N). exists i.
    assert (N1 : m1 <> []) by (intros ->; cbn in L1; lia). assert (N2 : m2 <> []) by (intros ->; cbn in L2; lia). assert (N3 : m3 <> []) by (intros ->; cbn in L3; lia).
    rewrite Ck in C3; [|exact N3|].
    + destruct (seam n i m1 m2 m3 Hi R N1 N2 N3 C1 C2 C3) as [E|[E|E]].
      * exists m1, m2, m3. split; [exact Hi|]. split; [apply three_runs_iff; auto|]. auto.
      * exists m3, m1, m2. split; [exact Hi|]. split; [apply three_runs_iff; auto|]. auto.
      * exists m2, m3, m1. split; [exact Hi|]. split; [apply three_runs_iff; auto|]. auto.
    + intros x Hx. destruct R as (X & Y & E & E' & _). assert (In x (after_leg n i)); [|apply (after_leg_In n i x Hi); assumption].
      rewrite E. assert (In x (Y ++ X)) by (rewrite <- E'; apply in_app_iff; right; apply in_app_iff; auto). rewrite in_app_iff in *. tauto.
  - intros (i & A & B & C & Hi & T & H). assert (T' := T). apply three_runs_iff in T' as (E & LA & LB & LC); [|exact Hi]. destruct T as (p & q & r & P & Q & R & L & EA & EB & EC).
    split; [|lia]. assert (RG : forall x, In x (A ++ B ++ C) -> 1 <= x <= n) by (intros x Hx; rewrite <- E in Hx; apply after_leg_In in Hx; tauto).
    assert (CA : check_neighbouring n A = true). { apply check_neighbouring_spec; [intros ->; cbn in LA; lia|intros x Hx; apply RG, in_app_iff; auto|]. rewrite EA. apply run_consecutive; [apply leg_at_range; lia|lia]. }
    assert (CB : check_neighbouring n B = true). { apply check_neighbouring_spec; [intros ->; cbn in LB; lia|intros x Hx; apply RG, in_app_iff; right; apply in_app_iff; auto|]. rewrite EB. apply run_consecutive; [apply leg_at_range; lia|lia]. }
    assert (CC : check_neighbouring n C = true). { apply check_neighbouring_spec; [intros ->; cbn in LC; lia|intros x Hx; apply RG, in_app_iff; right; apply in_app_iff; auto|]. rewrite EC. apply run_consecutive; [apply leg_at_range; lia|lia]. }
    assert (I3 : forall M, (2 <= length M)%nat -> incl M (A ++ B ++ C) -> check_neighbouring n M = true -> check_neighbouring n (iset M) = true) by (intros M LM IM CM; rewrite Ck; [exact CM|intros ->; cbn in LM; lia|intros x Hx; apply RG, IM, Hx]).
    assert (NA : A <> []) by (intros ->; cbn in LA; lia). assert (NB : B <> []) by (intros ->; cbn in LB; lia). assert (NC : C <> []) by (intros ->; cbn in LC; lia).
    destruct H as [->|[->| ->]].
    + exists i, A, B, C. split; [exact Hi|]. split; [exists [], (A ++ B ++ C); rewrite app_nil_r; split; [exact E|split; [reflexivity|destruct A; [congruence|discriminate]]]|].
      repeat (split; [first [assumption|apply I3; [assumption|intros x Hx; rewrite !in_app_iff; auto|assumption]]|]). reflexivity.
    + exists i, B, C, A. split; [exact Hi|]. split; [exists A, (B ++ C); rewrite <- app_assoc; split; [exact E|split; [reflexivity|destruct B; [congruence|discriminate]]]|].
      repeat (split; [first [assumption|apply I3; [assumption|intros x Hx; rewrite !in_app_iff; auto|assumption]]|]). reflexivity.
    + exists i, C, A, B. split; [exact Hi|]. split; [exists (A ++ B), C; rewrite <- app_assoc; split; [exact E|split; [reflexivity|exact NC]]|].
      repeat (split; [first [assumption|apply I3; [assumption|intros x Hx; rewrite !in_app_iff; auto|assumption]]|]). reflexivity.
Qed.
Lemma rotate_hd kk L : (kk < length L)%nat -> hd 0 (Nat.iter kk rotate1 L) = nth kk L 0.
Proof.
  intros H. assert (Q := rotate_app (firstn kk L) (skipn kk L)). rewrite firstn_length_le, firstn_skipn in Q by lia. rewrite Q.
  rewrite <- (firstn_skipn kk L) at 3. rewrite app_nth2; rewrite firstn_length_le by lia; [|lia]. rewrite Nat.sub_diag. destruct (skipn kk L) eqn:E; [|reflexivity].
  apply (f_equal (@length Z)) in E. rewrite skipn_length in E. cbn [length] in E. lia.
Qed.
Lemma hd_firstn j (L : list Z) : (0 < j)%nat -> hd 0 (firstn j L) = hd 0 L.
Proof. destruct j; [lia|]. destruct L; reflexivity. Qed.
Lemma rotate_length kk L : length (Nat.iter kk rotate1 L) = length L.
Proof. induction kk as [|kk IH]; [reflexivity|]. change (Nat.iter (S kk) rotate1 L) with (rotate1 (Nat.iter kk rotate1 L)). destruct (Nat.iter kk rotate1 L) as [|x l] eqn:E; cbn [rotate1]; [exact IH|]. rewrite app_length. cbn [length] in *. lia. Qed.
Theorem gen_5_NoDup iset n : NoDup (gen_5 iset n).
Proof.
  unfold gen_5. destruct (Z.geb_spec n 7) as [N|]; [|constructor]. unfold generate_5.
  assert (B : forall i P j b, In b (flat_map (fun k => if negb (check_neighbouring n (firstn (Z.to_nat k) (skipn (Z.to_nat j) P))) then [] else
      if negb (check_neighbouring n (iset (set_diff (set_diff P (firstn (Z.to_nat j) P)) (firstn (Z.to_nat k) (skipn (Z.to_nat j) P))))) then [] else
      [Brk true i [firstn (Z.to_nat j) P; firstn (Z.to_nat k) (skipn (Z.to_nat j) P); iset (set_diff (set_diff P (firstn (Z.to_nat j) P)) (firstn (Z.to_nat k) (skipn (Z.to_nat j) P)))] i]) (zrange 2 (n - 2 - j))) ->
    b_i b = i /\ nth 0 (b_mid b) [] = firstn (Z.to_nat j) P).
  { intros i P j b H. apply in_flat_map in H as (k & _ & H). destruct (negb _); [destruct H|]. destruct (negb _); [destruct H|]. destruct H as [<-|[]]. auto. }
  assert (Bj : forall i P b, In b (flat_map (fun j => if negb (check_neighbouring n (firstn (Z.to_nat j) P)) then [] else flat_map (fun k => if negb (check_neighbouring n (firstn (Z.to_nat k) (skipn (Z.to_nat j) P))) then [] else
      if negb (check_neighbouring n (iset (set_diff (set_diff P (firstn (Z.to_nat j) P)) (firstn (Z.to_nat k) (skipn (Z.to_nat j) P))))) then [] else
      [Brk true i [firstn (Z.to_nat j) P; firstn (Z.to_nat k) (skipn (Z.to_nat j) P); iset (set_diff (set_diff P (firstn (Z.to_nat j) P)) (firstn (Z.to_nat k) (skipn (Z.to_nat j) P)))] i]) (zrange 2 (n - 2 - j))) (zrange 2 (n - 4))) ->
    b_i b = i /\ hd 0 (nth 0 (b_mid b) []) = hd 0 P).
  { intros i P b H. apply in_flat_map in H as (j & Hj & H). apply zrange_In in Hj. destruct (negb _); [destruct H|]. apply B in H as [E1 E2]. split; [exact E1|]. rewrite E2. apply hd_firstn. lia. }
  assert (LW : forall i, 1 <= i <= n -> length (filter (fun x => negb (x =? i)) (zrange 1 (n + 1))) = Z.to_nat (n - 1)).
  { intros i Hi. rewrite without_eq by exact Hi. rewrite app_length. unfold zrange. rewrite !map_length, !seq_length. lia. }
  apply NoDup_flat_map; [apply zrange_NoDup| |].
  - intros i Hi. apply zrange_In in Hi. specialize (LW i ltac:(lia)). set (W := filter _ _) in *. apply NoDup_flat_map; [apply seq_NoDup| |].
    + intros kk Hkk. apply in_seq in Hkk. assert (LP := rotate_length kk W). set (P := Nat.iter kk rotate1 W) in *. apply NoDup_flat_map; [apply zrange_NoDup| |].
      * intros j Hj. apply zrange_In in Hj. destruct (negb _); [constructor|]. apply NoDup_flat_map; [apply zrange_NoDup| |].
        -- intros k Hk. destruct (negb _); [constructor|]. destruct (negb _); repeat constructor. intros [].
        -- intros k k' b Hk Hk' H H'. apply zrange_In in Hk, Hk'. destruct (negb _); [destruct H|]. destruct (negb _); [destruct H|]. destruct H as [<-|[]]. destruct (negb _); [destruct H'|]. destruct (negb _); [destruct H'|]. destruct H' as [H'|[]].
           injection H' as E _. apply (f_equal (@length Z)) in E. rewrite !firstn_length, skipn_length in E. lia.
      * intros j j' b Hj Hj' H H'. apply zrange_In in Hj, Hj'. destruct (negb _); [destruct H|]. destruct (negb _); [destruct H'|]. apply B in H as [_ E], H' as [_ E']. rewrite E in E'. apply (f_equal (@length Z)) in E'. rewrite !firstn_length in E'. lia.
    + intros kk kk' b Hkk Hkk' H H'. apply in_seq in Hkk, Hkk'. apply Bj in H as [_ E], H' as [_ E']. rewrite E in E'. rewrite !rotate_hd in E' by lia.
      apply (NoDup_nth W 0); [apply NoDup_filter, zrange_NoDup|lia|lia|exact E'].
  - intros i i' b _ _ H H'. apply in_flat_map in H as (kk & _ & H), H' as (kk' & _ & H'). apply Bj in H as [E _], H' as [E' _]. congruence.
Qed.
