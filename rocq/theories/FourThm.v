(* Four brackets that are products, and four brackets that agree. *)
From Coq Require Import Field List ZArith Bool Lia Sorted Permutation.
From Verif Require Import Base Fld Particle ParticleSpec ParticleThm Index IndexThm Phase PhaseSpec PhaseThm Det Compute ComputeSpec ComputeThm ComputeThm2 Gen GenSpec GenThm GenThm2 GenThm3 FourSpec.
Import ListNotations.
Open Scope Z_scope.

Section Thm.
Context {K : Fld}.
Add Field Kfo1 : (fth K).
Open Scope fld_scope.
Implicit Types (s : ps K) (I J L : list Z).

(* the momentum of a leg, and of some legs *)
Definition pm s (k : Z) : m2 K := match getitem s k with Ok p => r2 p | Err _ => mzero end.
Definition ms s I : m2 K := msum (map (pm s) I).
Definition legs (n : Z) I : Prop := forall x, In x I -> (1 <= x <= n)%Z.

Ltac mring := apply m2_ext; unfold adj; unfold_vec; cbn; ring.
Lemma madd_comm (a b : m2 K) : madd a b = madd b a. Proof. mring. Qed.
Lemma madd_assoc (a b c : m2 K) : madd a (madd b c) = madd (madd a b) c. Proof. mring. Qed.
Lemma madd_0_l (a : m2 K) : madd mzero a = a. Proof. destruct a. mring. Qed.
Lemma msum_cons (a : m2 K) l : msum (a :: l) = madd a (msum l). Proof. reflexivity. Qed.
Lemma msum_perm (l l' : list (m2 K)) : Permutation l l' -> msum l = msum l'.
Proof.
  induction 1; rewrite ?msum_cons; [reflexivity|rewrite IHPermutation; reflexivity| |congruence].
  rewrite !madd_assoc, (madd_comm y x). reflexivity.
Qed.
Lemma ms_perm s I J : Permutation I J -> ms s I = ms s J.
Proof. intros P. apply msum_perm, Permutation_map, P. Qed.
Lemma ms_cons s k I : ms s (k :: I) = madd (pm s k) (ms s I). Proof. reflexivity. Qed.
Lemma ms_app s I J : ms s (I ++ J) = madd (ms s I) (ms s J).
Proof. induction I as [|k I IH]; cbn [app]; [rewrite <- (madd_0_l (ms s J)) at 1; reflexivity|]. rewrite !ms_cons, IH, madd_assoc. reflexivity. Qed.

Lemma pm_get n s k p : conserving n s -> getitem s k = Ok p -> pm s k = r2 p.
Proof. intros _ G. unfold pm. rewrite G. reflexivity. Qed.
Lemma leg_get n s k : conserving n s -> (1 <= k <= n)%Z -> exists p, getitem s k = Ok p /\ reproduces p /\ pm s k = r2 p.
Proof.
  intros (L & S & R & T) H. destruct (getitem_ok s k) as (p & G & _); [unfold zlen; lia|]. exists p. split; [exact G|]. split; [apply (proj1 (Forall_getitem _ _) R k p G)|].
  unfold pm. rewrite G. reflexivity.
Qed.
Lemma moms n s I : conserving n s -> legs n I -> rmapM (mom false s) I = Ok (map (pm s) I).
Proof.
  intros C H. induction I as [|k I IH]; [reflexivity|]. cbn [rmapM map]. destruct (leg_get n s k C) as (p & G & _ & E); [apply H; left; reflexivity|].
  unfold mom at 1. rewrite G. cbn [rmap rbind]. rewrite IH by (intros x X; apply H; right; exact X). cbn [rbind]. rewrite E. reflexivity.
Qed.
Lemma mom_sum_ms n s I : conserving n s -> legs n I -> I <> [] -> mom_sum false s I = Ok (ms s I).
Proof. intros C H N. destruct I as [|k I]; [congruence|]. unfold mom_sum. rewrite (moms n) by assumption. reflexivity. Qed.
Lemma sum_val n s I : conserving n s -> legs n I -> I <> [] -> entry_val false s (sum_of I) = Ok (ms s I).
Proof. intros C H N. destruct I as [|k I]; [congruence|]. unfold sum_of. cbn [hd tl]. rewrite entry_esum. apply (mom_sum_ms n); assumption. Qed.
Lemma total n s : conserving n s -> ms s (upto (length s)) = mzero.
Proof.
  intros C. assert (X := moms n s (upto (length s)) C). destruct C as (L & S & R & T). rewrite mom_all in X.
  assert (Y : Ok (map (fun p => r2 p) s) = Ok (map (pm s) (upto (length s)))).
  { apply X. intros x Hx. unfold upto in Hx. apply in_map_iff in Hx as (i & <- & Hi). apply in_seq in Hi. lia. }
  injection Y as Y. unfold ms. rewrite <- Y. exact T.
Qed.

(* the spinors of a leg *)
Definition sr s (k : Z) : v2 K := match getitem s k with Ok p => match r_d p with Some r => r | None => vzero end | Err _ => vzero end.
Definition sl s (k : Z) : v2 K := match getitem s k with Ok p => match l_d p with Some l => l | None => vzero end | Err _ => vzero end.
Lemma leg_spin n s k : conserving n s -> (1 <= k <= n)%Z -> exists p, getitem s k = Ok p /\ r_d p = Some (sr s k) /\ l_d p = Some (sl s k) /\
  r_u p = Some (raise_r (sr s k)) /\ l_u p = Some (raise_r (sl s k)) /\ pm s k = outer (raise_r (sl s k)) (raise_r (sr s k)).
Proof.
  intros C H. destruct (leg_get n s k C H) as (p & G & (r & l & Hr & Hl & _ & E & Hu & Hu') & P). exists p. unfold sr, sl. rewrite P, G, Hr, Hl. repeat split; assumption.
Qed.
Definition fval s (ang : bool) (a : Z) (M N : m2 K) (d : Z) : K :=
  if ang then vdot (vm (raise_r (sr s a)) (mmul (adj M) N)) (sr s d) else vdot (vm (sl s a) (mmul M (adj N))) (raise_r (sl s d)).
Definition tval s (i : Z) (M : m2 K) (j : Z) : K := vdot (vm (raise_r (sr s i)) (adj M)) (raise_r (sl s j)).
Definition aval s (i j : Z) : K := vdot (raise_r (sr s i)) (sr s j).
Definition bval s (i j : Z) : K := vdot (sl s i) (raise_r (sl s j)).

Lemma four_val n s ang a I J d : conserving n s -> legs n I -> legs n J -> I <> [] -> J <> [] -> (1 <= a <= n)%Z -> (1 <= d <= n)%Z ->
  four s ang a I J d = Ok (fval s ang a (ms s I) (ms s J) d).
Proof.
  intros C HI HJ NI NJ Ha Hd. destruct (leg_spin n s a C Ha) as (pa & Ga & Ra & La & Ua & Va & _), (leg_spin n s d C Hd) as (pd & Gd & Rd & Ld & Ud & Vd & _).
  assert (B := sound_barred s (proj1 (proj2 C))).
  assert (M : rmapM (entry_val false s) [sum_of I; sum_of J] = Ok [ms s I; ms s J]). { cbn [rmapM]. rewrite !(sum_val n) by assumption. reflexivity. }
  unfold four. destruct ang.
  - rewrite (chain_make s OAng a _ d CAng pa pd [ms s I; ms s J] (raise_r (sr s a)) (sr s d)); auto; [|discriminate]. cbn [oflag mprod negb flagm fval]. rewrite mmul_1_r. reflexivity.
  - rewrite (chain_make s OSq a _ d CSq pa pd [ms s I; ms s J] (sl s a) (raise_r (sl s d))); auto; [|discriminate]. cbn [oflag mprod negb flagm fval]. rewrite mmul_1_r. reflexivity.
Qed.
Lemma three_val n s i I j : conserving n s -> legs n I -> I <> [] -> (1 <= i <= n)%Z -> (1 <= j <= n)%Z ->
  short_val s (SThree i I j) = Ok (tval s i (ms s I) j).
Proof.
  intros C HI NI Ha Hd. destruct (leg_spin n s i C Ha) as (pa & Ga & Ra & La & Ua & Va & _), (leg_spin n s j C Hd) as (pd & Gd & Rd & Ld & Ud & Vd & _).
  assert (B := sound_barred s (proj1 (proj2 C))).
  assert (M : rmapM (entry_val false s) [sum_of I] = Ok [ms s I]). { cbn [rmapM]. rewrite !(sum_val n) by assumption. reflexivity. }
  cbn [short_val]. rewrite (chain_make s OAng i _ j CSq pa pd [ms s I] (raise_r (sr s i)) (raise_r (sl s j))); auto; [|discriminate]. cbn [oflag mprod negb flagm]. rewrite mmul_1_r. reflexivity.
Qed.
Lemma ang_val n s i j : conserving n s -> (1 <= i <= n)%Z -> (1 <= j <= n)%Z -> short_val s (SAng i j) = Ok (aval s i j).
Proof.
  intros C Ha Hd. destruct (leg_spin n s i C Ha) as (pa & Ga & Ra & La & Ua & Va & _), (leg_spin n s j C Hd) as (pd & Gd & Rd & Ld & Ud & Vd & _).
  apply (A2_make s i j pa pd); auto. apply (proj1 (proj2 C)).
Qed.
Lemma sq_val n s i j : conserving n s -> (1 <= i <= n)%Z -> (1 <= j <= n)%Z -> short_val s (SSq i j) = Ok (bval s i j).
Proof.
  intros C Ha Hd. destruct (leg_spin n s i C Ha) as (pa & Ga & Ra & La & Ua & Va & _), (leg_spin n s j C Hd) as (pd & Gd & Rd & Ld & Ud & Vd & _).
  apply (S2_make s i j pa pd); auto. apply (proj1 (proj2 C)).
Qed.
Lemma man_val n s I : conserving n s -> legs n I -> I <> [] -> short_val s (SMan I) = Ok (mdet (ms s I)).
Proof. intros C H N. cbn [short_val]. unfold c_S. rewrite (mom_sum_ms n) by assumption. cbn [rbind]. rewrite det2_mdet. reflexivity. Qed.

(* algebra of the values *)
Ltac fring := unfold fval, tval, aval, bval, raise_r, adj; unfold_vec; ring.
Lemma f_same s ang a M d : fval s ang a M M d = mdet M * (if ang then aval s a d else bval s a d).
Proof. destruct ang; fring. Qed.
Lemma f_self s ang a M : fval s ang a M M a = 0.
Proof. rewrite f_same. destruct ang; fring. Qed.
Lemma f_opp_l s ang a M N d : fval s ang a (mopp M) N d = - fval s ang a M N d. Proof. destruct ang; fring. Qed.
Lemma f_opp_r s ang a M N d : fval s ang a M (mopp N) d = - fval s ang a M N d. Proof. destruct ang; fring. Qed.
Lemma f_add_l s ang a M M' N d : fval s ang a (madd M M') N d = fval s ang a M N d + fval s ang a M' N d. Proof. destruct ang; fring. Qed.
Lemma f_add_r s ang a M N N' d : fval s ang a M (madd N N') d = fval s ang a M N d + fval s ang a M N' d. Proof. destruct ang; fring. Qed.
Lemma f_first n s ang a N d : conserving n s -> (1 <= a <= n)%Z -> fval s ang a (pm s a) N d = 0.
Proof. intros C H. destruct (leg_spin n s a C H) as (p & _ & _ & _ & _ & _ & ->). destruct ang; fring. Qed.
Lemma f_last n s ang a M d : conserving n s -> (1 <= d <= n)%Z -> fval s ang a M (pm s d) d = 0.
Proof. intros C H. destruct (leg_spin n s d C H) as (p & _ & _ & _ & _ & _ & ->). destruct ang; fring. Qed.
(* <a|P|k|d> *)
Lemma f_leg_r n s ang a M k d : conserving n s -> (1 <= k <= n)%Z ->
  fval s ang a M (pm s k) d = if ang then tval s a M k * aval s k d else tval s k M a * bval s k d.
Proof. intros C H. destruct (leg_spin n s k C H) as (p & _ & _ & _ & _ & _ & ->). destruct ang; fring. Qed.
Lemma f_leg_l n s ang a N k d : conserving n s -> (1 <= k <= n)%Z ->
  fval s ang a (pm s k) N d = if ang then aval s a k * tval s d N k else bval s a k * tval s k N d.
Proof. intros C H. destruct (leg_spin n s k C H) as (p & _ & _ & _ & _ & _ & ->). destruct ang; fring. Qed.
(* <a|P+d|P|d> = <a|d> s(P+d), <a|P|P+a|d> = <a|d> s(P+a) *)
Lemma f_with_last n s ang a M d : conserving n s -> (1 <= d <= n)%Z ->
  fval s ang a (madd (pm s d) M) M d = mdet (madd (pm s d) M) * (if ang then aval s a d else bval s a d).
Proof. intros C H. destruct (leg_spin n s d C H) as (p & _ & _ & _ & _ & _ & ->). destruct ang; fring. Qed.
Lemma f_with_first n s ang a M d : conserving n s -> (1 <= a <= n)%Z ->
  fval s ang a M (madd (pm s a) M) d = mdet (madd (pm s a) M) * (if ang then aval s a d else bval s a d).
Proof. intros C H. destruct (leg_spin n s a C H) as (p & _ & _ & _ & _ & _ & ->). destruct ang; fring. Qed.

Lemma fadd_0_r (x : K) : x + 0 = x. Proof. ring. Qed.
Lemma fadd_0_l (x : K) : 0 + x = x. Proof. ring. Qed.
(* the other legs *)
Lemma others_ms n s a I I' : conserving n s -> (1 <= a <= n)%Z -> legset n I -> ~ In a I -> other_legs n (a :: I) I' ->
  ms s I' = mopp (madd (pm s a) (ms s I)).
Proof.
  intros C Ha (SI & FI) NI ((SI' & FI') & O).
  assert (P : Permutation ((a :: I) ++ I') (upto (length s))).
  { rewrite Forall_forall in FI, FI'. apply NoDup_Permutation.
    - apply NoDup_app''; [constructor; [exact NI|apply sorted_lt_NoDup, SI]|apply sorted_lt_NoDup, SI'|]. intros x X X'. apply (O x); auto.
    - unfold upto. apply FinFun.Injective_map_NoDup; [intros i j; lia|apply seq_NoDup].
    - intros x. rewrite in_app_iff. unfold upto. rewrite in_map_iff. destruct C as (L & _). split.
      + intros X. assert (R : (1 <= x <= n)%Z) by (destruct X as [[<-|X]|X]; auto). exists (Z.to_nat x). split; [lia|]. apply in_seq. lia.
      + intros (i & <- & X). apply in_seq in X. destruct (in_dec Z.eq_dec (Z.of_nat i) (a :: I)) as [Y|Y]; [left; exact Y|]. right. apply O; [lia|exact Y]. }
  apply (ms_perm s) in P. rewrite (total n s C), ms_app, ms_cons in P. apply madd_zero_opp, P.
Qed.
Lemma fopp_fopp (x : K) : - - x = x. Proof. ring. Qed.
Lemma f_others_l n s ang a I I' N d : conserving n s -> (1 <= a <= n)%Z -> legset n I -> ~ In a I -> other_legs n (a :: I) I' ->
  fval s ang a (ms s I') N d = - fval s ang a (ms s I) N d.
Proof. intros C Ha H H' O. rewrite (others_ms n s a I I'), f_opp_l, f_add_l, (f_first n) by assumption. ring. Qed.
Lemma f_others_r n s ang a J J' M d : conserving n s -> (1 <= d <= n)%Z -> legset n J -> ~ In d J -> other_legs n (d :: J) J' ->
  fval s ang a M (ms s J') d = - fval s ang a M (ms s J) d.
Proof. intros C Ha H H' O. rewrite (others_ms n s d J J'), f_opp_r, f_add_r, (f_last n) by assumption. ring. Qed.
End Thm.

Lemma beside_legs n a I I' : legset n I -> beside_as n a I I' -> legset n I'.
Proof. intros H [->|[H' _]]; assumption. Qed.
Lemma legset_legs n I : legset n I -> legs n I.
Proof. intros [_ F]. rewrite Forall_forall in F. exact F. Qed.
Lemma beside_sign n ang a I I' J J' d : 1 <= a <= n -> 1 <= d <= n -> legset n I -> ~ In a I -> legset n J -> ~ In d J ->
  beside_as n a I I' -> beside_as n d J J' ->
  exists neg : bool, forall (K : Fld) (s : ps K), conserving n s -> fval s ang a (ms s I) (ms s J) d = signed neg (fval s ang a (ms s I') (ms s J') d).
Proof.
  intros Ha Hd LI NI LJ NJ [->|OI] [->|OJ].
  - exists false. reflexivity.
  - exists true. intros K s C. rewrite (f_others_r n s ang a J J') by assumption. cbn [signed]. rewrite fopp_fopp. reflexivity.
  - exists true. intros K s C. rewrite (f_others_l n s ang a I I') by assumption. cbn [signed]. rewrite fopp_fopp. reflexivity.
  - exists false. intros K s C. rewrite (f_others_r n s ang a J J'), (f_others_l n s ang a I I') by assumption. cbn [signed]. rewrite fopp_fopp. reflexivity.
Qed.
Lemma same_legs n I J : legset n I -> legset n J -> (forall x, In x I <-> In x J) -> I = J.
Proof. intros [A _] [B _]. apply sorted_ext; assumption. Qed.
Lemma with_leg_perm n k I J : legset n I -> legset n J -> with_leg k I J -> Permutation J (k :: I).
Proof.
  intros [A _] [B _] [N H]. apply NoDup_Permutation; [apply sorted_lt_NoDup, B|constructor; [exact N|apply sorted_lt_NoDup, A]|]. intros x. rewrite H. cbn [In]. intuition.
Qed.
Theorem reducible_product n ang a I J d : 1 <= a <= n -> 1 <= d <= n -> legset n I -> legset n J -> ~ In a I -> ~ In d J -> I <> [] -> J <> [] ->
  reducible n a I J d -> is_product n ang a I J d.
Proof.
  intros Ha Hd LI LJ NI NJ EI EJ (I' & J' & BI & BJ & EI' & EJ' & H).
  assert (LI' := beside_legs n a I I' LI BI). assert (LJ' := beside_legs n d J J' LJ BJ).
  destruct (beside_sign n ang a I I' J J' d Ha Hd LI NI LJ NJ BI BJ) as (neg & E).
  assert (G : forall x y : short, proper n x -> proper n y -> (forall (K : Fld) (s : ps K), conserving n s -> exists v w, short_val s x = Ok v /\ short_val s y = Ok w /\ fval s ang a (ms s I') (ms s J') d = fmul v w) ->
    is_product n ang a I J d).
  { intros x y Px Py P. exists x, y. split; [exact Px|]. split; [exact Py|]. exists neg. intros K s C. destruct (P K s C) as (v & w & V & W & F). exists v, w. split; [exact V|]. split; [exact W|].
    rewrite (four_val n) by auto using legset_legs. rewrite (E K s C), F. reflexivity. }
  assert (ends : forall (K : Fld) (s : ps K), conserving n s -> short_val s (if ang then SAng a d else SSq a d) = Ok (if ang then aval s a d else bval s a d)).
  { intros K s C. destruct ang; [apply (ang_val n)|apply (sq_val n)]; assumption. }
  assert (PE : proper n (if ang then SAng a d else SSq a d)) by (destruct ang; split; assumption).
  assert (KL : forall k A B, legset n A -> legset n B -> with_leg k A B -> 1 <= k <= n).
  { intros k A B _ LB [_ W]. apply (legset_legs n B LB). apply W. left. reflexivity. }
  destruct H as [<-|[(<- & k & [W|W])|[W|W]]].
  - apply (G (SMan I') (if ang then SAng a d else SSq a d)); [split; assumption|exact PE|]. intros K s C. exists (mdet (ms s I')), (if ang then aval s a d else bval s a d).
    split; [apply (man_val n); auto using legset_legs|]. split; [apply ends, C|]. apply f_same.
  - assert (Hk := KL k I' J' LI' LJ' W). assert (P := with_leg_perm n k I' J' LI' LJ' W).
    apply (G (if ang then SThree a I' k else SThree k I' a) (if ang then SAng k a else SSq k a)); [destruct ang; repeat split; try assumption; try lia; apply LI'|destruct ang; split; assumption|]. intros K s C.
    exists (if ang then tval s a (ms s I') k else tval s k (ms s I') a), (if ang then aval s k a else bval s k a). split; [|split].
    + destruct ang; apply (three_val n); auto using legset_legs.
    + destruct ang; [apply (ang_val n)|apply (sq_val n)]; assumption.
    + rewrite (ms_perm s _ _ P), ms_cons, f_add_r, f_self, (f_leg_r n), fadd_0_r by assumption. destruct ang; reflexivity.
  - assert (Hk := KL k J' I' LJ' LI' W). assert (P := with_leg_perm n k J' I' LJ' LI' W).
    apply (G (if ang then SAng a k else SSq a k) (if ang then SThree a J' k else SThree k J' a)); [destruct ang; split; assumption|destruct ang; repeat split; try assumption; try lia; apply LJ'|]. intros K s C.
    exists (if ang then aval s a k else bval s a k), (if ang then tval s a (ms s J') k else tval s k (ms s J') a). split; [|split].
    + destruct ang; [apply (ang_val n)|apply (sq_val n)]; assumption.
    + destruct ang; apply (three_val n); auto using legset_legs.
    + rewrite (ms_perm s _ _ P), ms_cons, f_add_l, f_self, (f_leg_l n), fadd_0_r by assumption. destruct ang; reflexivity.
  - assert (P := with_leg_perm n d J' I' LJ' LI' W).
    apply (G (SMan I') (if ang then SAng a d else SSq a d)); [split; assumption|exact PE|]. intros K s C. exists (mdet (ms s I')), (if ang then aval s a d else bval s a d).
    split; [apply (man_val n); auto using legset_legs|]. split; [apply ends, C|]. rewrite (ms_perm s _ _ P), ms_cons. apply (f_with_last n); assumption.
  - assert (P := with_leg_perm n a I' J' LI' LJ' W).
    apply (G (SMan J') (if ang then SAng a d else SSq a d)); [split; assumption|exact PE|]. intros K s C. exists (mdet (ms s J')), (if ang then aval s a d else bval s a d).
    split; [apply (man_val n); auto using legset_legs|]. split; [apply ends, C|]. rewrite (ms_perm s _ _ P), ms_cons. apply (f_with_first n); assumption.
Qed.

(* ---- doubles ---- *)
Lemma shares_ms (K : Fld) n (s : ps K) a I J L : conserving n s -> three_shares n a I J L -> ms s J = mopp (madd (pm s a) (madd (ms s I) (ms s L))).
Proof.
  intros C ((SI & FI) & (SJ & FJ) & (SL & FL) & Ha & NI & NJ & NL & H). rewrite Forall_forall in FI, FJ, FL.
  assert (P : Permutation ((a :: I ++ L) ++ J) (upto (length s))).
  { apply NoDup_Permutation.
    - apply NoDup_app''; [constructor| |].
      + rewrite in_app_iff. intuition.
      + apply NoDup_app''; [apply sorted_lt_NoDup, SI|apply sorted_lt_NoDup, SL|]. intros x X X'. assert (N : x <> a) by (intros ->; auto). specialize (H x (FI x X) N). tauto.
      + apply sorted_lt_NoDup, SJ.
      + intros x X X'. assert (N : x <> a) by (intros ->; auto). specialize (H x (FJ x X') N). destruct X as [<-|X]; [congruence|]. apply in_app_iff in X. tauto.
    - unfold upto. apply FinFun.Injective_map_NoDup; [intros i j; lia|apply seq_NoDup].
    - intros x. rewrite in_app_iff. cbn [In]. rewrite in_app_iff. unfold upto. rewrite in_map_iff. destruct C as (LN & _). split.
      + intros X. assert (R : 1 <= x <= n) by (destruct X as [[<-|[X|X]]|X]; auto). exists (Z.to_nat x). split; [lia|]. apply in_seq. lia.
      + intros (i & <- & X). apply in_seq in X. destruct (Z.eq_dec a (Z.of_nat i)) as [Y|Y]; [auto|]. specialize (H (Z.of_nat i) ltac:(lia) ltac:(congruence)). tauto. }
  apply (ms_perm s) in P. rewrite (total n s C), ms_app, ms_cons, ms_app in P. apply madd_zero_opp, P.
Qed.
Section Forms.
Context {K : Fld}.
Add Field Kfo2 : (fth K).
Lemma form_IL n (s : ps K) ang a I J L : conserving n s -> three_shares n a I J L -> fval s ang a (ms s I) (ms s L) a = fopp (fval s ang a (ms s I) (ms s J) a).
Proof.
  intros C H. rewrite (shares_ms K n s a I J L C H), f_opp_r, !f_add_r, f_self, (f_last n); [ring|exact C|]. apply H.
Qed.
Lemma form_LJ n (s : ps K) ang a I J L : conserving n s -> three_shares n a I J L -> fval s ang a (ms s L) (ms s J) a = fopp (fval s ang a (ms s I) (ms s J) a).
Proof.
  intros C (LI & LJ & LL & Ha & NI & NJ & NL & H).
  assert (Q : three_shares n a J I L). { repeat split; try assumption; try apply LI; try apply LJ; try apply LL; try apply Ha. intros x X X'. specialize (H x X X'). tauto. }
  rewrite (shares_ms K n s a J I L C Q), f_opp_l, !f_add_l, f_self, (f_first n); [ring|exact C|exact Ha].
Qed.
Lemma form_JI (s : ps K) ang a M N d : fval s ang a N M d = fopp (fval s ang d M N a).
Proof. destruct ang; unfold fval, raise_r, adj; unfold_vec; ring. Qed.
End Forms.
Theorem three_forms n ang a I J L : three_shares n a I J L -> I <> [] -> J <> [] -> L <> [] -> forall (K : Fld) (s : ps K), conserving n s ->
  exists v, four s ang a I J a = Ok v /\ four s ang a I L a = Ok (fopp v) /\ four s ang a L J a = Ok (fopp v) /\ four s ang a J I a = Ok (fopp v).
Proof.
  intros H NI NJ NL K s C. assert (LI := legset_legs n I (proj1 H)). assert (LJ := legset_legs n J (proj1 (proj2 H))). assert (LL := legset_legs n L (proj1 (proj2 (proj2 H)))).
  assert (Ha : 1 <= a <= n) by apply H. exists (fval s ang a (ms s I) (ms s J) a). rewrite !(four_val n) by assumption.
  rewrite (form_IL n s ang a I J L C H), (form_LJ n s ang a I J L C H), (form_JI s ang a (ms s I) (ms s J) a). auto.
Qed.

(* ---- the generation ---- *)
Lemma beside_0 n a I : 1 <= a <= n -> incl I (beside n a 0) -> legs n I /\ ~ In a I.
Proof. intros Ha H. split; [intros x X; apply H, beside_In in X; tauto|]. intros X. apply H, beside_In in X. tauto. Qed.
Lemma good4_legs n b : good4 n b -> exists I J, b_mid b = [I; J] /\ 1 <= b_i b <= n /\ 1 <= b_j b <= n /\ legset n I /\ legset n J /\ ~ In (b_i b) I /\ ~ In (b_j b) J /\ I <> [] /\ J <> [] /\
  Z.of_nat (length I) <= n / 2 /\ Z.of_nat (length J) <= n / 2.
Proof.
  intros (I & J & M & A & B & _ & SI & SJ & BI & BJ & NI & NJ). exists I, J. destruct (beside_0 n (b_i b) I) as [LI XI]; [lia|exact BI|]. destruct (beside_0 n (b_j b) J) as [LJ XJ]; [lia|exact BJ|].
  split; [exact M|]. split; [lia|]. split; [lia|]. split; [split; [exact SI|apply Forall_forall, LI]|]. split; [split; [exact SJ|apply Forall_forall, LJ]|]. split; [exact XI|]. split; [exact XJ|].
  split; [intros ->; cbn in NI; lia|]. split; [intros ->; cbn in NJ; lia|]. lia.
Qed.
Lemma compl_In n l x : In x (complementary n l) <-> 1 <= x <= n /\ ~ In x l.
Proof. unfold complementary. rewrite filter_In, zrange_In, negb_true_iff, memz_false. intuition lia. Qed.
Lemma compl_sorted n l : StronglySorted Z.lt (complementary n l). Proof. apply filter_sorted, zrange_sorted. Qed.
Lemma compl_other n a I : other_legs n (a :: I) (complementary n (a :: I)).
Proof. split; [split; [apply compl_sorted|apply Forall_forall; intros x X; apply compl_In in X; tauto]|]. intros x X. rewrite compl_In. tauto. Qed.
Lemma beside_cases n a I I' : beside_as n a I I' -> I' = I \/ I' = complementary n (a :: I).
Proof.
  intros [->|O]; [auto|right]. destruct (compl_other n a I) as [L O']. destruct O as [L' O]. apply (same_legs n); [exact L'|exact L|]. intros x. split; intros X.
  - assert (R := legset_legs n I' L' x X). apply O'; [exact R|]. apply O; [exact R|exact X].
  - assert (R := legset_legs n _ L x X). apply O; [exact R|]. apply O'; [exact R|exact X].
Qed.
Lemma diff_In x A B : In x (set_diff A B) <-> In x A /\ ~ In x B.
Proof. unfold set_diff. rewrite filter_In, negb_true_iff, memz_false. tauto. Qed.
Lemma subset_In A B : (forall x, In x A -> In x B) -> subset A B = true.
Proof. intros H. unfold subset. apply forallb_forall. intros x X. apply memz_In, H, X. Qed.
Lemma diff_sorted A B : StronglySorted Z.lt A -> StronglySorted Z.lt (set_diff A B). Proof. apply filter_sorted. Qed.
Lemma with_leg_diff n k A B : legset n B -> with_leg k A B -> set_diff B A = [k].
Proof.
  intros [SB _] [N W]. apply sorted_ext; [apply diff_sorted, SB|repeat constructor|]. intros x. rewrite diff_In, W. cbn [In]. split; [intros [[->|X] Y]; [auto|contradiction]|intros [<-|[]]; auto].
Qed.
Lemma set_eqb_refl A : set_eqb A A = true.
Proof. unfold set_eqb. rewrite subset_In by auto. reflexivity. Qed.
Lemma or_l a b : a = true -> a || b = true. Proof. intros ->. reflexivity. Qed.
Lemma or_r a b : b = true -> a || b = true. Proof. intros ->. apply orb_true_r. Qed.
Ltac pick := first [assumption | apply or_r; assumption | apply or_l; pick].
Lemma one_more n k A B : legset n B -> with_leg k A B -> subset A B && (length (set_diff B A) =? 1)%nat = true.
Proof. intros L W. rewrite (with_leg_diff n k A B L W), subset_In; [reflexivity|]. intros x X. apply W. auto. Qed.
Lemma flip_leg n a k A B A' B' : legset n A -> legset n B -> ~ In a A -> ~ In a B -> other_legs n (a :: A) A' -> other_legs n (a :: B) B' -> with_leg k A' B' -> with_leg k B A.
Proof.
  intros LA LB NA NB [LA' OA] [LB' OB] [N W]. assert (Kb : 1 <= k <= n) by (apply (legset_legs n B' LB'), W; auto).
  assert (KB : ~ In k (a :: B)) by (apply OB; [exact Kb|apply W; auto]). split; [intros X; apply KB; right; exact X|].
  intros x. split.
  - intros X. assert (R := legset_legs n A LA x X). destruct (Z.eq_dec x k) as [->|Y]; [auto|right]. destruct (in_dec Z.eq_dec x (a :: B)) as [[<-|Z]|Z]; [contradiction|exact Z|]. exfalso.
    apply OB in Z; [|exact R]. apply W in Z as [Z|Z]; [contradiction|]. apply OA in Z; [|exact R]. apply Z. right. exact X.
  - intros [->|X].
    + destruct (in_dec Z.eq_dec k (a :: A)) as [[<-|Z]|Z]; [exfalso; apply KB; left; reflexivity|exact Z|]. exfalso. apply OA in Z; [contradiction|exact Kb].
    + assert (R := legset_legs n B LB x X). destruct (in_dec Z.eq_dec x (a :: A)) as [[<-|Z]|Z]; [contradiction|exact Z|]. exfalso. apply OA in Z; [|exact R].
      assert (Q : In x B') by (apply W; auto). apply OB in Q; [|exact R]. apply Q. right. exact X.
Qed.
Lemma with_leg_length n k A B : legset n A -> legset n B -> with_leg k A B -> length B = S (length A).
Proof. intros LA LB W. apply (Permutation_length (with_leg_perm n k A B LA LB W)). Qed.
Lemma other_length1 n a A : 1 <= a <= n -> legset n A -> ~ In a A -> Z.of_nat (length (complementary n (a :: A))) = n - 1 - Z.of_nat (length A).
Proof. intros Ha [S F] N. apply complementary_length; [lia|exact Ha|apply sorted_lt_NoDup, S|]. intros x X. rewrite Forall_forall in F. apply beside_In. assert (R := F x X). split; [exact R|]. split; [intros ->; auto|lia]. Qed.
Lemma raw4_small n b : In b (raw4 n) -> 2 * Z.of_nat (length (nth 0 (b_mid b) [])) <= n - 1 /\ 2 * Z.of_nat (length (nth 1 (b_mid b) [])) <= n - 1.
Proof.
  intros H. apply flat_pair_In in H as (i & j & Hi & Hj & H). destruct (Z_lt_le_dec j i) as [L|L].
  - unfold at_pair, gen_N_at in H. change (4 mod 2 =? 0) with true in H. cbn [andb] in H. destruct (Z.gtb_spec i j); [destruct H|lia].
  - destruct (at_pair_4 n i j Hi Hj L) as (r1 & r2 & E & (_ & P1 & _) & (_ & P2 & _)). unfold at_pair in H. rewrite E in H. cbn [okl] in H. apply in_flat_map in H as (ang & _ & H).
    apply in_map_iff in H as (mid & <- & H). apply in_flat_map in H as (e & He & H). apply extend_2_In in H as (s & Hs & N & _ & ->). cbn [b_mid nth].
    apply P1 in Hs as (_ & _ & _ & A). apply P2 in He as (_ & _ & _ & B). rewrite beside_len in A, B by (split; auto). cbn [Z.eqb orb] in A, B. lia.
Qed.
Theorem left_out n r b : gen_N n 4 = Ok r -> In b r -> reducible n (b_i b) (nth 0 (b_mid b) []) (nth 1 (b_mid b) []) (b_j b) ->
  ~ In b (drop_products n r).
Proof.
  intros R Hb H X. unfold drop_products in X. apply filter_In in X as [_ X]. apply negb_true_iff in X. revert X. apply not_false_iff_true.
  rewrite gen_4_raw in R. injection R as <-. assert (SM := raw4_small n b Hb). apply raw4_In, good4_legs in Hb as (I & J & M & Ha & Hd & LI & LJ & NI & NJ & EI & EJ & BI & BJ). rewrite M in H, SM. cbn [nth] in H, SM.
  destruct H as (I' & J' & CI & CJ & EI' & EJ' & H).
  unfold factorises, alt0, alt1, mid0, mid1. rewrite M. cbn [nth]. set (a := b_i b) in *. set (d := b_j b) in *.
  assert (OI := compl_other n a I). assert (OJ := compl_other n d J). assert (SI := other_length1 n a I Ha LI NI). assert (SJ := other_length1 n d J Hd LJ NJ).
  apply beside_cases in CI, CJ. set (a0 := complementary n (a :: I)) in *. set (a1 := complementary n (d :: J)) in *.
  assert (La0 : legset n a0) by apply OI. assert (La1 : legset n a1) by apply OJ.
  destruct H as [<-|[(E & k & H)|[W|W]]].
  - apply or_l, or_l. destruct CI as [-> | ->], CJ as [E|E]; rewrite <- E, ?set_eqb_refl, ?orb_true_r; reflexivity.
  - apply or_l, or_r. assert (Q : a =? d = true) by (apply Z.eqb_eq; exact E). rewrite Q. cbn [andb].
    destruct H as [W|W], CI as [-> | ->], CJ as [-> | ->].
    + assert (Y := one_more n k _ _ LJ W). pick.
    + assert (Y := one_more n k _ _ La1 W). pick.
    + apply with_leg_length with (n := n) in W; [|assumption..]. lia.
    + rewrite <- E in *. apply (flip_leg n a k I J a0 a1) in W; try assumption. assert (Y := one_more n k _ _ LI W). pick.
    + assert (Y := one_more n k _ _ LI W). pick.
    + apply with_leg_length with (n := n) in W; [|assumption..]. lia.
    + assert (Y := one_more n k _ _ La0 W). pick.
    + rewrite <- E in *. apply (flip_leg n a k J I a1 a0) in W; try assumption. assert (Y := one_more n k _ _ LJ W). pick.
  - apply or_r. assert (LI' : legset n I') by (destruct CI as [-> | ->]; assumption). assert (Y : only (set_diff I' J') d = true) by (rewrite (with_leg_diff n d J' I' LI' W); apply Z.eqb_refl).
    destruct CI as [-> | ->], CJ as [-> | ->]; pick.
  - apply or_r. assert (LJ' : legset n J') by (destruct CJ as [-> | ->]; assumption). assert (Y : only (set_diff J' I') a = true) by (rewrite (with_leg_diff n a I' J' LJ' W); apply Z.eqb_refl).
    destruct CI as [-> | ->], CJ as [-> | ->]; pick.
Qed.

(* ---- removed doubles ---- *)
Lemma reorder_sorted l l' : Permutation l l' -> StronglySorted Z.lt l -> StronglySorted Z.lt l' -> l' = l.
Proof. intros P S S'. apply sorted_ext; [exact S'|exact S|]. intros x. split; apply Permutation_in; [apply Permutation_sym|]; exact P. Qed.
Lemma remove1_not x y l l' : remove1 brk_eqb x l = Ok l' -> In y l -> ~ In y l' -> y = x.
Proof.
  revert l'. induction l as [|z l IH]; intros l' H Y N; [destruct Y|]. cbn [remove1] in H. destruct (brk_eqb z x) eqn:E.
  - injection H as <-. destruct (brk_eqb_spec z x) as [->|]; [|discriminate]. destruct Y as [Y|Y]; [auto|contradiction].
  - destruct (remove1 brk_eqb x l) as [l1|] eqn:R; [|discriminate]. cbn [rmap rbind] in H. injection H as <-. destruct Y as [->|Y]; [exfalso; apply N; left; reflexivity|]. apply (IH l1); auto. intros X. apply N. right. exact X.
Qed.
Lemma shares_IL n a I J : 1 <= a <= n -> legset n I -> legset n J -> ~ In a I -> ~ In a J -> incl I (complementary n (a :: J)) ->
  three_shares n a I J (set_diff (complementary n (a :: J)) I).
Proof.
  intros Ha LI LJ NI NJ S. split; [exact LI|]. split; [exact LJ|]. split; [split; [apply diff_sorted, compl_sorted|apply Forall_forall; intros x X; apply diff_In in X as [X _]; apply compl_In in X; tauto]|].
  split; [exact Ha|]. split; [exact NI|]. split; [exact NJ|]. split; [intros X; apply diff_In in X as [X _]; apply compl_In in X as [_ X]; apply X; left; reflexivity|].
  intros x X X'. rewrite diff_In, compl_In. cbn [In].
  destruct (in_dec Z.eq_dec x I) as [Y|Y].
  - left. split; [exact Y|]. assert (Y2 := Y). apply S, compl_In in Y2 as [_ Y2]. cbn [In] in Y2. tauto.
  - right. destruct (in_dec Z.eq_dec x J) as [Y'|Y']; [left; tauto|right]. repeat split; try tauto. intuition congruence.
Qed.
Lemma shares_LJ n a I J : 1 <= a <= n -> legset n I -> legset n J -> ~ In a I -> ~ In a J -> incl J (complementary n (a :: I)) ->
  three_shares n a I J (set_diff (complementary n (a :: I)) J).
Proof.
  intros Ha LI LJ NI NJ S. destruct (shares_IL n a J I Ha LJ LI NJ NI S) as (_ & _ & C & _ & _ & _ & N & H). repeat split; try assumption; try apply LI; try apply LJ; try apply C; try apply Ha.
  intros x X X'. specialize (H x X X'). tauto.
Qed.
Lemma doubles_sym n b b' : doubles n b b' -> doubles n b' b.
Proof.
  intros (A & B & C & D & I & J & L & (LI & LJ & LL & Ha & NI & NJ & NL & H) & M & M'). split; [congruence|]. split; [congruence|]. split; [congruence|]. split; [congruence|]. rewrite B.
  destruct M' as [M'|M'].
  - exists I, L, J. split; [|split; [exact M'|left; exact M]]. repeat split; try assumption; try apply LI; try apply LJ; try apply LL; try apply Ha. intros x X X'. specialize (H x X X'). tauto.
  - exists L, J, I. split; [|split; [exact M'|right; exact M]]. repeat split; try assumption; try apply LI; try apply LJ; try apply LL; try apply Ha. intros x X X'. specialize (H x X X'). tauto.
Qed.
Lemma doubles_neq n b b' : good4 n b -> good4 n b' -> doubles n b b' -> b' <> b.
Proof.
  intros G G' (_ & _ & _ & _ & I & J & L & (LI & LJ & LL & Ha & NI & NJ & NL & H) & M & M') ->. rewrite M in M'. apply good4_legs in G as (I0 & J0 & M0 & _ & _ & _ & _ & _ & _ & EI & EJ & _).
  rewrite M in M0. injection M0 as <- <-. destruct M' as [M'|M']; injection M' as E.
  - subst L. destruct J as [|x J]; [congruence|]. assert (R := legset_legs n _ LJ x (or_introl eq_refl)). assert (N : x <> b_i b) by (intros ->; apply NJ; left; reflexivity).
    specialize (H x R N). cbn [In] in H. tauto.
  - subst L. destruct I as [|x I]; [congruence|]. assert (R := legset_legs n _ LI x (or_introl eq_refl)). assert (N : x <> b_i b) by (intros ->; apply NI; left; reflexivity).
    specialize (H x R N). cbn [In] in H. tauto.
Qed.
Section Ord.
Variable ord : brk -> bool -> list Z -> list Z.
Hypothesis R : forall b br l, Permutation l (ord b br l).
Lemma step_doubles n all i b l l' x : good4 n b -> (forall y, In y l -> good4 n y) -> In b all -> incl l all -> dedupe_step ord n all i b l = Ok l' -> In x l -> ~ In x l' ->
  exists x', In x' all /\ doubles n x x'.
Proof.
  intros G GL Ab Al H X N. unfold dedupe_step in H. destruct (Z.eqb_spec (b_i b) (b_j b)) as [E|E]; [|injection H as <-; contradiction]. cbn [negb] in H.
  destruct (good4_legs n b G) as (I & J & M & Ha & Hd & LI & LJ & NI & NJ & EI & EJ & _). unfold alt0, alt1, mid0, mid1 in H. rewrite M in H. cbn [nth] in H. rewrite <- E in *.
  match type of H with rbind ?u _ = _ => destruct u as [l1|] eqn:H1; [|discriminate] end. cbn [rbind] in H.
  assert (P1 : incl l1 l /\ (In x l1 \/ exists x', In x' all /\ doubles n x x')).
  { destruct (subset I (complementary n (b_i b :: J))) eqn:S; [|injection H1 as <-; split; [apply incl_refl|auto]]. apply subset_incl in S.
    match type of H1 with context [memb ?e l] => set (e' := e) in * end.
    destruct (memb e' l) eqn:Me; [|injection H1 as <-; split; [apply incl_refl|auto]]. apply memb_In in Me.
    assert (D : doubles n b e').
    { destruct (GL e' Me) as (s1 & s2 & M' & _ & _ & _ & S1 & S2 & _). unfold e' in M'. cbn [b_mid] in M'. injection M' as <- <-.
      assert (Q := shares_IL n (b_i b) I J Ha LI LJ NI NJ S).
      split; [reflexivity|]. split; [reflexivity|]. split; [exact E|]. split; [exact E|]. exists I, J, (set_diff (complementary n (b_i b :: J)) I). split; [exact Q|]. split; [exact M|]. left. unfold e'. cbn [b_mid].
      rewrite (reorder_sorted _ _ (R b true I)), (reorder_sorted _ _ (R b true (set_diff (complementary n (b_i b :: J)) I))); [reflexivity|apply diff_sorted, compl_sorted|exact S2|apply LI|exact S1]. }
    assert (Z : forall z, remove1 brk_eqb z l = Ok l1 -> (z = b \/ z = e') -> incl l1 l /\ (In x l1 \/ exists x', In x' all /\ doubles n x x')).
    { intros z Hz Cz. split; [apply (remove1_incl z), Hz|]. destruct (in_dec brk_dec x l1) as [Y|Y]; [auto|right]. apply (remove1_not z x) in Hz; [|assumption..]. subst z.
      destruct Cz as [-> | ->]; [exists e'; split; [apply Al, Me|exact D]|exists b; split; [exact Ab|apply doubles_sym, D]]. }
    repeat match type of H1 with (if ?c then _ else _) = _ => destruct c end; try (injection H1 as <-; split; [apply incl_refl|auto]; fail); eapply Z; eauto. }
  destruct P1 as [I1 [X1|X1]]; [|exact X1].
  destruct (subset J (complementary n (b_i b :: I))) eqn:S; [|injection H as <-; contradiction]. apply subset_incl in S.
  match type of H with context [memb ?e l1] => set (e' := e) in * end.
  destruct (memb e' l1) eqn:Me; cbn [andb] in H; [|injection H as <-; contradiction]. apply memb_In in Me. destruct (i <? index_of e' all)%nat; [|injection H as <-; contradiction].
  apply (remove1_not e' x) in H; [|assumption..]. subst x. exists b. split; [exact Ab|]. apply doubles_sym.
  destruct (GL e' (I1 _ Me)) as (s1 & s2 & M' & _ & _ & _ & S1 & S2 & _). unfold e' in M'. cbn [b_mid] in M'. injection M' as <- <-.
  assert (Q := shares_LJ n (b_i b) I J Ha LI LJ NI NJ S).
  split; [reflexivity|]. split; [reflexivity|]. split; [exact E|]. split; [exact E|]. exists I, J, (set_diff (complementary n (b_i b :: I)) J). split; [exact Q|]. split; [exact M|]. right. unfold e'. cbn [b_mid].
  rewrite (reorder_sorted _ _ (R b false J)), (reorder_sorted _ _ (R b false (set_diff (complementary n (b_i b :: I)) J))); [reflexivity|apply diff_sorted, compl_sorted|exact S1|apply LJ|exact S2].
Qed.
Lemma loop_doubles n all todo : (forall y, In y all -> good4 n y) -> incl todo all -> forall i l l' x, incl l all -> dedupe_loop ord n all i todo l = Ok l' -> In x l -> ~ In x l' ->
  exists x', In x' all /\ doubles n x x'.
Proof.
  intros GA. induction todo as [|b todo IH]; intros T i l l' x Al H X N; cbn [dedupe_loop] in H; [injection H as <-; contradiction|].
  destruct (dedupe_step ord n all i b l) as [l1|] eqn:H1; [|discriminate]. cbn [rbind] in H. assert (Ab : In b all) by (apply T; left; reflexivity).
  destruct (in_dec brk_dec x l1) as [Y|Y].
  - apply (IH (fun y Hy => T y (or_intror Hy)) (S i) l1 l' x); auto. intros y Hy. apply Al. apply (step_incl ord n all i b l l1 H1 y Hy).
  - apply (step_doubles n all i b l l1 x); auto.
Qed.
Theorem removed n r l b : gen_N n 4 = Ok r -> gen_4 ord n = Ok l -> In b (drop_products n r) -> ~ In b l ->
  exists b', In b' (drop_products n r) /\ b' <> b /\ doubles n b b'.
Proof.
  intros G G4 X N. rewrite gen_4_raw in G. injection G as <-. fold (list4 n) in *. rewrite gen_4_eq in G4.
  destruct (loop_doubles n (list4 n) (list4 n) (list4_In n) (incl_refl _) 0%nat (list4 n) l b (incl_refl _) G4 X N) as (b' & A & D). exists b'. split; [exact A|]. split; [|exact D].
  apply (doubles_neq n); auto using list4_In.
Qed.
End Ord.

(* ---- what is left out ---- *)
Lemma set_eqb_eq n A B : legset n A -> legset n B -> set_eqb A B = true <-> A = B.
Proof.
  intros LA LB. split; [|intros ->; apply set_eqb_refl]. intros H. apply andb_true_iff in H as [H H']. apply subset_incl in H, H'. apply (same_legs n); auto. intros x. split; auto.
Qed.
Lemma one_more_iff n A B : legset n A -> legset n B -> subset A B && (length (set_diff B A) =? 1)%nat = true <-> exists k, with_leg k A B.
Proof.
  intros LA LB. split; [|intros (k & W); apply (one_more n k); assumption]. intros H. apply andb_true_iff in H as [S L]. apply subset_incl in S. apply Nat.eqb_eq in L.
  destruct (set_diff B A) as [|k [|]] eqn:E; try discriminate. assert (D : forall x, In x B /\ ~ In x A <-> x = k). { intros x. rewrite <- diff_In, E. cbn [In]. intuition. }
  exists k. split; [apply D; reflexivity|]. intros x. split.
  - intros X. destruct (in_dec Z.eq_dec x A); [auto|]. left. apply D. auto.
  - intros [->|X]; [apply D; reflexivity|apply S, X].
Qed.
Lemma only_iff n A B k : legset n A -> only (set_diff A B) k = true <-> all_but k A B.
Proof.
  intros [SA FA]. split.
  - intros H. destruct (set_diff A B) as [|y [|]] eqn:E; try discriminate. apply Z.eqb_eq in H. subst y. assert (D : forall x, In x A /\ ~ In x B <-> x = k). { intros x. rewrite <- diff_In, E. cbn [In]. intuition. }
    destruct (proj2 (D k) eq_refl) as [KA KB]. split; [exact KA|]. split; [exact KB|]. intros x X. destruct (in_dec Z.eq_dec x B); [auto|]. left. apply D. auto.
  - intros (KA & KB & H). assert (E : set_diff A B = [k]); [|rewrite E; apply Z.eqb_refl].
    apply sorted_ext; [apply diff_sorted, SA|repeat constructor|]. intros x. rewrite diff_In. cbn [In]. split; [intros [X Y]; left; destruct (H x X); [congruence|contradiction]|intros [<-|[]]; auto].
Qed.
Theorem factorises_iff n b : good4 n b -> factorises n b = true <-> taken_for_product n (b_i b) (nth 0 (b_mid b) []) (nth 1 (b_mid b) []) (b_j b).
Proof.
  intros G. apply good4_legs in G as (I & J & M & Ha & Hd & LI & LJ & NI & NJ & EI & EJ & BI & BJ). unfold factorises, alt0, alt1, mid0, mid1. rewrite M. cbn [nth].
  set (a := b_i b) in *. set (d := b_j b) in *. assert (OI := compl_other n a I). assert (OJ := compl_other n d J).
  set (a0 := complementary n (a :: I)) in *. set (a1 := complementary n (d :: J)) in *. assert (La0 : legset n a0) by apply OI. assert (La1 : legset n a1) by apply OJ.
  assert (BI0 : beside_as n a I I) by (left; reflexivity). assert (BI1 : beside_as n a I a0) by (right; exact OI).
  assert (BJ0 : beside_as n d J J) by (left; reflexivity). assert (BJ1 : beside_as n d J a1) by (right; exact OJ).
  rewrite !orb_true_iff, !andb_true_iff, !orb_true_iff, !(set_eqb_eq n), Z.eqb_eq by assumption.
  rewrite !(one_more_iff n), !(only_iff n) by assumption. unfold taken_for_product. split.
  - intros H.
    assert (Q : (exists I' J', beside_as n a I I' /\ beside_as n d J J' /\ I' = J') \/ (a = d /\ exists J' k, beside_as n d J J' /\ with_leg k I J') \/ (a = d /\ exists I' k, beside_as n a I I' /\ with_leg k J I') \/
      (exists I' J', beside_as n a I I' /\ beside_as n d J J' /\ all_but d I' J') \/ (exists I' J', beside_as n a I I' /\ beside_as n d J J' /\ all_but a J' I')).
    { decompose [or and ex] H; [left; eauto 6..| | | | | | | | | | | | ]; try (right; left; split; [assumption|]; eexists _, _; split; [|eassumption]; assumption);
        try (right; right; left; split; [assumption|]; eexists _, _; split; [|eassumption]; assumption);
        try (right; right; right; left; eexists _, _; split; [|split; [|eassumption]]; assumption); try (right; right; right; right; eexists _, _; split; [|split; [|eassumption]]; assumption). }
    destruct Q as [(I' & J' & A & B & C)|[(E & J' & k & B & C)|[(E & I' & k & A & C)|[(I' & J' & A & B & C)|(I' & J' & A & B & C)]]]].
    + exists I', J'. split; [assumption|]. split; [assumption|]. tauto.
    + exists I, J'. split; [assumption|]. split; [assumption|]. right; left. split; [assumption|]. exists k. left. assumption.
    + exists I', J. split; [assumption|]. split; [assumption|]. right; left. split; [assumption|]. exists k. right. assumption.
    + exists I', J'. split; [assumption|]. split; [assumption|]. tauto.
    + exists I', J'. split; [assumption|]. split; [assumption|]. tauto.
  - intros (I' & J' & CI & CJ & H). apply beside_cases in CI, CJ. fold a0 in CI. fold a1 in CJ. destruct H as [E|[(E & k & [W|W])|[W|W]]]; destruct CI as [-> | ->], CJ as [-> | ->]; try (assert (W' := ex_intro (fun k => with_leg k _ _) k W)); tauto.
Qed.
Theorem left_out_iff n r b : gen_N n 4 = Ok r -> In b r -> ~ In b (drop_products n r) <-> taken_for_product n (b_i b) (nth 0 (b_mid b) []) (nth 1 (b_mid b) []) (b_j b).
Proof.
  intros R H. rewrite gen_4_raw in R. injection R as <-. rewrite <- (factorises_iff n b (raw4_In n b H)). unfold drop_products. rewrite filter_In. destruct (factorises n b); cbn [negb]; intuition discriminate.
Qed.

Section Zeros.
Context {K : Fld}.
Add Field Kfo3 : (fth K).
Lemma opp_zero (x : K) : fopp x = f0 -> x = f0. Proof. intros H. replace x with (fopp (fopp x)) by ring. rewrite H. ring. Qed.
Lemma mul_zero (x y : K) : fmul x y = f0 -> x = f0 \/ y = f0.
Proof.
  intros H. destruct (feqb x f0) eqn:E; [left; apply feqb_ok, E|right]. assert (N : x <> f0) by (intros ->; rewrite feqb_refl in E; discriminate).
  replace y with (fmul (finv x) (fmul x y)) by (field; exact N). rewrite H. ring.
Qed.
Lemma zero_left (neg : bool) (y : K) : signed neg (fmul f0 y) = f0. Proof. destruct neg; cbn [signed]; ring. Qed.
Lemma zero_right (neg : bool) (y : K) : signed neg (fmul y f0) = f0. Proof. destruct neg; cbn [signed]; ring. Qed.
End Zeros.
