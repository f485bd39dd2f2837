(* Polynomials in one variable over a field, as lists of coefficients (lowest first), and
   their division with remainder: what sympy computes with when a spinor component is a
   symbol (particles.py:194-222, sympy expressions). *)
From Coq Require Import List ZArith Bool Lia Ring Field Setoid Morphisms.
From Verif Require Import Base Fld.
Import ListNotations.

Section Pol.
Context {K : Fld}.
Open Scope fld_scope.
Add Field Krp1 : (fth K).
Notation pol := (list K).

(* the coefficient of the n-th power; sympy.Poly.coeff_monomial; expressions of particles.py:198-222 *)
Definition coef (p : pol) (n : nat) : K := nth n p 0.
(* equal as polynomials; expressions of particles.py:198-222 *)
Record peq (p q : pol) : Prop := Peq { pe :> forall n, coef p n = coef q n }.
(* sympy.Add; expressions of particles.py:198-222 *)
Fixpoint padd (p q : pol) : pol :=
  match p, q with
  | [], _ => q
  | _, [] => p
  | a :: p', b :: q' => a + b :: padd p' q'
  end.
(* number times polynomial; sympy.Mul; expressions of particles.py:198-222 *)
Definition pscale (c : K) (p : pol) : pol := map (fmul c) p.
(* arithmetic of the expressions of particles.py:198-222 *)
Definition popp (p : pol) : pol := map fopp p.
(* arithmetic of the expressions of particles.py:198-222 *)
Definition psub (p q : pol) : pol := padd p (popp q).
(* sympy.Mul; expressions of particles.py:198-222 *)
Fixpoint pmul (p q : pol) : pol :=
  match p with [] => [] | a :: p' => padd (pscale a q) (0 :: pmul p' q) end.
(* without zeros at the end; expressions of particles.py:198-222 *)
Fixpoint norm (p : pol) : pol :=
  match p with
  | [] => []
  | a :: p' => match norm p' with [] => if feqb a 0 then [] else [a] | l => a :: l end
  end.
(* the number of coefficients; expressions of particles.py:198-222 *)
Definition size (p : pol) : nat := length (norm p).
(* the leading coefficient; sympy.LC; expressions of particles.py:198-222 *)
Definition lead (p : pol) : K := coef p (pred (size p)).
(* quotient and remainder by a polynomial b of degree d; sympy.div; expressions of particles.py:198-222 *)
Fixpoint pdivmod (d : nat) (b a : pol) : pol * pol :=
  match a with
  | [] => ([], [])
  | x :: a' => let '(q, r) := pdivmod d b a' in
      let c := coef (x :: r) d / coef b d in
      (c :: q, psub (x :: r) (pscale c b))
  end.
(* arithmetic of the expressions of particles.py:198-222 *)
Definition pdiv (a b : pol) : pol := fst (pdivmod (pred (size b)) b a).
(* arithmetic of the expressions of particles.py:198-222 *)
Definition pmod (a b : pol) : pol := snd (pdivmod (pred (size b)) b a).
(* the greatest common divisor g and u, v with g = u a + v b; sympy.gcdex; expressions of particles.py:198-222 *)
Fixpoint egcd (fuel : nat) (a b : pol) : pol * pol * pol :=
  match fuel with
  | O => (a, [1], [])
  | S f => match norm b with
           | [] => (a, [1], [])
           | _ => let '(g, u, v) := egcd f b (pmod a b) in (g, v, psub u (pmul v (pdiv a b)))
           end
  end.
(* arithmetic of the expressions of particles.py:198-222 *)
Definition pgcd (a b : pol) : pol := fst (fst (egcd (S (size b)) a b)).
(* the value; sympy.Poly.eval; expressions of particles.py:198-222 *)
Fixpoint peval (p : pol) (t : K) : K := match p with [] => 0 | a :: p' => a + t * peval p' t end.
(* arithmetic of the expressions of particles.py:198-222 *)
Fixpoint leqb (p q : pol) : bool :=
  match p, q with [], [] => true | a :: p', b :: q' => feqb a b && leqb p' q' | _, _ => false end.

(* ---- laws ---- *)
Lemma coef_nil n : coef [] n = 0. Proof. destruct n; reflexivity. Qed.
Lemma coef_cons a p n : coef (a :: p) (S n) = coef p n. Proof. reflexivity. Qed.
Lemma coef_0 a p : coef (a :: p) 0 = a. Proof. reflexivity. Qed.
Lemma coef_padd p q n : coef (padd p q) n = coef p n + coef q n.
Proof.
  revert q n; induction p as [|a p IH]; intros [|b q] n; cbn [padd].
  - rewrite !coef_nil. ring.
  - rewrite coef_nil. ring.
  - rewrite coef_nil. ring.
  - destruct n; [reflexivity|]. rewrite !coef_cons. apply IH.
Qed.
Lemma coef_pscale c p n : coef (pscale c p) n = c * coef p n.
Proof.
  revert n; induction p as [|a p IH]; intros n; cbn [pscale map]; [rewrite !coef_nil; ring|].
  destruct n; [reflexivity|]. rewrite !coef_cons. apply IH.
Qed.
Lemma coef_popp p n : coef (popp p) n = - coef p n.
Proof.
  revert n; induction p as [|a p IH]; intros n; cbn [popp map]; [rewrite !coef_nil; ring|].
  destruct n; [reflexivity|]. rewrite !coef_cons. apply IH.
Qed.
Lemma coef_psub p q n : coef (psub p q) n = coef p n - coef q n.
Proof. unfold psub. rewrite coef_padd, coef_popp. ring. Qed.
Lemma pmul_nil p : pmul [] p = []. Proof. reflexivity. Qed.
Lemma coef_pmul_0 a p q : coef (pmul (a :: p) q) 0 = a * coef q 0.
Proof. cbn [pmul]. rewrite coef_padd, coef_pscale, coef_0. ring. Qed.
Lemma coef_pmul_S a p q n : coef (pmul (a :: p) q) (S n) = a * coef q (S n) + coef (pmul p q) n.
Proof. cbn [pmul]. rewrite coef_padd, coef_pscale, coef_cons. reflexivity. Qed.

Global Instance peq_equiv : Equivalence peq.
Proof.
  split; [intros p; split; intros n; reflexivity|intros p q H; split; intros n; symmetry; apply H|].
  intros p q r H H'; split; intros n; rewrite (pe _ _ H n); apply H'.
Qed.
Global Instance coef_ext : Proper (peq ==> eq ==> eq) coef.
Proof. intros p q H n m ->. apply H. Qed.
Global Instance padd_ext : Proper (peq ==> peq ==> peq) padd.
Proof. intros p p' H q q' H'; split; intros n. rewrite !coef_padd, H, H'. reflexivity. Qed.
Global Instance popp_ext : Proper (peq ==> peq) popp.
Proof. intros p p' H; split; intros n. rewrite !coef_popp, H. reflexivity. Qed.
Global Instance psub_ext : Proper (peq ==> peq ==> peq) psub.
Proof. intros p p' H q q' H'; split; intros n. rewrite !coef_psub, H, H'. reflexivity. Qed.
Global Instance pscale_ext c : Proper (peq ==> peq) (pscale c).
Proof. intros p p' H; split; intros n. rewrite !coef_pscale, H. reflexivity. Qed.
Global Instance cons_ext a : Proper (peq ==> peq) (cons a).
Proof. intros p p' H; split; intros [|n]; [reflexivity|]. rewrite !coef_cons. apply H. Qed.
Lemma pmul_ext_r p : Proper (peq ==> peq) (pmul p).
Proof.
  induction p as [|a p IH]; intros q q' H; [reflexivity|]. cbn [pmul]. rewrite H. reflexivity.
Qed.
Lemma pmul_nil_r p : peq (pmul p []) [].
Proof.
  induction p as [|a p IH]; [reflexivity|]. split; intros [|n].
  - rewrite coef_pmul_0, !coef_nil. ring.
  - rewrite coef_pmul_S, IH, !coef_nil. ring.
Qed.
Lemma pmul_cons_r p b q : peq (pmul p (b :: q)) (padd (pscale b p) (0 :: pmul p q)).
Proof.
  induction p as [|a p IH]; [split; intros [|[|n]]; reflexivity|]. split; intros n. rewrite coef_padd, coef_pscale. destruct n.
  - rewrite coef_pmul_0, !coef_0. ring.
  - rewrite coef_pmul_S, !coef_cons, IH, coef_padd, coef_pscale. destruct n.
    + rewrite !coef_0, coef_pmul_0. ring.
    + rewrite !coef_cons, coef_pmul_S. ring.
Qed.
Lemma pmul_comm p q : peq (pmul p q) (pmul q p).
Proof.
  induction p as [|a p IH]; [symmetry; apply pmul_nil_r|]. rewrite pmul_cons_r. cbn [pmul]. rewrite IH. reflexivity.
Qed.
Global Instance pmul_ext : Proper (peq ==> peq ==> peq) pmul.
Proof.
  intros p p' H q q' H'. rewrite (pmul_ext_r p _ _ H'), (pmul_comm p), (pmul_comm p'). apply pmul_ext_r, H.
Qed.
Lemma pmul_padd_l p q r : peq (pmul (padd p q) r) (padd (pmul p r) (pmul q r)).
Proof.
  revert q; induction p as [|a p IH]; intros q; [reflexivity|]. destruct q as [|b q].
  - split; intros n. cbn [padd]. rewrite coef_padd, pmul_nil, coef_nil. ring.
  - split; intros n. cbn [padd]. rewrite coef_padd. destruct n.
    + rewrite !coef_pmul_0. ring.
    + rewrite !coef_pmul_S, IH, coef_padd. ring.
Qed.
Lemma pmul_pscale_l c p q : peq (pmul (pscale c p) q) (pscale c (pmul p q)).
Proof.
  induction p as [|a p IH]; [reflexivity|]. split; intros n. cbn [pscale map]. fold (pscale c p). rewrite coef_pscale. destruct n.
  - rewrite !coef_pmul_0. ring.
  - rewrite !coef_pmul_S, IH, coef_pscale. ring.
Qed.
Lemma pmul_shift_l p q : peq (pmul (0 :: p) q) (0 :: pmul p q).
Proof. split; intros [|n]; [rewrite coef_pmul_0, coef_0; ring|]. rewrite coef_pmul_S, coef_cons. ring. Qed.
Lemma pmul_assoc p q r : peq (pmul p (pmul q r)) (pmul (pmul p q) r).
Proof.
  induction p as [|a p IH]; [reflexivity|]. cbn [pmul]. rewrite pmul_padd_l, pmul_pscale_l, pmul_shift_l, IH. reflexivity.
Qed.
Lemma pmul_1_l p : peq (pmul [1] p) p.
Proof. split; intros [|n]; [rewrite coef_pmul_0; ring|]. rewrite coef_pmul_S, pmul_nil, coef_nil. ring. Qed.
Lemma pol_ring : ring_theory [] [1] padd pmul psub popp peq.
Proof.
  split.
  - reflexivity.
  - intros p q; split; intros n. rewrite !coef_padd. ring.
  - intros p q r; split; intros n. rewrite !coef_padd. ring.
  - apply pmul_1_l.
  - apply pmul_comm.
  - apply pmul_assoc.
  - apply pmul_padd_l.
  - reflexivity.
  - intros p; split; intros n. rewrite coef_padd, coef_popp, coef_nil. ring.
Qed.
Lemma pol_ext : ring_eq_ext padd pmul popp peq.
Proof. split; [apply padd_ext|apply pmul_ext|apply popp_ext]. Qed.
Add Ring PolR : pol_ring (setoid peq_equiv pol_ext).

Lemma pscale_pmul c p : peq (pscale c p) (pmul [c] p).
Proof. split; intros [|n]; rewrite coef_pscale; [rewrite coef_pmul_0; reflexivity|]. rewrite coef_pmul_S, pmul_nil, coef_nil. ring. Qed.

(* ---- normal forms ---- *)
Lemma norm_peq p : peq (norm p) p.
Proof.
  induction p as [|a p IH]; [reflexivity|]. cbn [norm]. destruct (norm p) as [|b l] eqn:E.
  - destruct (feqb a 0) eqn:Z.
    + apply feqb_ok in Z. subst a. split; intros [|n]; [reflexivity|]. rewrite coef_cons, <- IH, !coef_nil. reflexivity.
    + rewrite <- IH. reflexivity.
  - rewrite <- IH. reflexivity.
Qed.
Lemma norm_zero p : peq p [] -> norm p = [].
Proof.
  induction p as [|a p IH]; intros H; [reflexivity|]. cbn [norm]. rewrite IH.
  - pose proof (H 0%nat) as Z. rewrite coef_0, coef_nil in Z. rewrite (proj2 (feqb_ok _ _ _) Z). reflexivity.
  - split; intros n. pose proof (H (S n)) as H1. rewrite coef_cons, !coef_nil in H1. rewrite coef_nil. exact H1.
Qed.
Lemma norm_nil p : norm p = [] <-> peq p [].
Proof. split; [intros E; rewrite <- (norm_peq p), E; reflexivity|apply norm_zero]. Qed.
Lemma norm_ext p q : peq p q -> norm p = norm q.
Proof.
  revert q; induction p as [|a p IH]; intros q H; [symmetry; apply norm_zero; symmetry; exact H|].
  destruct q as [|b q]; [apply norm_zero, H|]. cbn [norm].
  pose proof (H 0%nat) as Z. rewrite !coef_0 in Z. subst b. rewrite (IH q); [reflexivity|].
  split; intros n. apply (H (S n)).
Qed.
Lemma norm_idem p : norm (norm p) = norm p. Proof. apply norm_ext, norm_peq. Qed.
Lemma size_ext p q : peq p q -> size p = size q. Proof. intros H. unfold size. now rewrite (norm_ext _ _ H). Qed.
Lemma lead_ext p q : peq p q -> lead p = lead q. Proof. intros H. unfold lead. rewrite (size_ext _ _ H). apply H. Qed.
Lemma size_above p n : (size p <= n)%nat -> coef p n = 0.
Proof. intros H. rewrite <- norm_peq. unfold coef. apply nth_overflow, H. Qed.
Lemma size_nil p : size p = 0%nat <-> peq p [].
Proof. unfold size. rewrite <- norm_nil. destruct (norm p); cbn [length]; split; intros; (reflexivity || discriminate). Qed.
Lemma norm_last p : norm p <> [] -> last (norm p) 0 <> 0.
Proof.
  induction p as [|a p IH]; intros H; [exfalso; apply H; reflexivity|]. cbn [norm] in *. destruct (norm p) as [|b l] eqn:E.
  - destruct (feqb a 0) eqn:Z; [exfalso; apply H; reflexivity|]. cbn [last]. intros X. apply feqb_ok in X. rewrite X in Z. discriminate.
  - cbn [last]. destruct l; apply IH; discriminate.
Qed.
Lemma nth_last (l : pol) : nth (pred (length l)) l 0 = last l 0.
Proof. induction l as [|a [|b l] IH]; [reflexivity|reflexivity|]. cbn [length pred nth] in *. rewrite IH. reflexivity. Qed.
Lemma lead_nz p : ~ peq p [] -> lead p <> 0.
Proof.
  intros H. unfold lead. rewrite <- (pe _ _ (norm_peq p)). unfold coef, size. rewrite nth_last. apply norm_last. now rewrite norm_nil.
Qed.
(* a polynomial with no coefficients from n on has size at most n *)
Lemma size_below p n : (forall k, (n <= k)%nat -> coef p k = 0) -> (size p <= n)%nat.
Proof.
  intros H. destruct (le_lt_dec (size p) n) as [L|L]; [exact L|]. exfalso. apply (lead_nz p).
  - rewrite <- size_nil. lia.
  - unfold lead. apply H. lia.
Qed.

(* ---- division ---- *)
Lemma pdivmod_ok d b a : (forall k, (d < k)%nat -> coef b k = 0) -> coef b d <> 0 ->
  let '(q, r) := pdivmod d b a in peq a (padd (pmul q b) r) /\ forall k, (d <= k)%nat -> coef r k = 0.
Proof.
  intros Hb Nz. induction a as [|x a IH]; cbn [pdivmod]; [split; [reflexivity|intros; apply coef_nil]|].
  destruct (pdivmod d b a) as [q r]. destruct IH as [E B].
  set (c := coef (x :: r) d / coef b d). split.
  - split; intros n. rewrite coef_padd, coef_psub, coef_pscale. destruct n.
    + rewrite coef_pmul_0, !coef_0. ring.
    + rewrite coef_pmul_S, !coef_cons, E, coef_padd. ring.
  - intros k Hk. rewrite coef_psub, coef_pscale. destruct (Nat.eq_dec k d) as [->|Ne].
    + unfold c. field. exact Nz.
    + rewrite (Hb k) by lia. destruct k; [lia|]. rewrite coef_cons, B by lia. ring.
Qed.
Lemma pdiv_ok a b : ~ peq b [] -> peq a (padd (pmul (pdiv a b) b) (pmod a b)) /\ (size (pmod a b) < size b)%nat.
Proof.
  intros Nz. unfold pdiv, pmod. assert (S : size b <> 0%nat) by (rewrite size_nil; exact Nz).
  pose proof (pdivmod_ok (pred (size b)) b a) as H.
  destruct (pdivmod (pred (size b)) b a) as [q r]. cbn [fst snd].
  destruct H as [E B]; [intros k Hk; apply size_above; lia|apply (lead_nz b), Nz|].
  split; [exact E|]. apply size_below in B. lia.
Qed.
(* arithmetic of the expressions of particles.py:198-222 *)
Definition divides (a b : pol) : Prop := exists c, peq b (pmul c a).
Lemma divides_0 a : divides a []. Proof. exists []. reflexivity. Qed.
Lemma divides_refl a : divides a a. Proof. exists [1]. ring. Qed.
Lemma divides_padd a b c : divides a b -> divides a c -> divides a (padd b c).
Proof. intros [x X] [y Y]. exists (padd x y). rewrite X, Y. ring. Qed.
Lemma divides_pmul a b c : divides a b -> divides a (pmul c b).
Proof. intros [x X]. exists (pmul c x). rewrite X. ring. Qed.
Lemma divides_ext a b b' : peq b b' -> divides a b -> divides a b'.
Proof. intros H [x X]. exists x. rewrite <- H. exact X. Qed.
Lemma egcd_ok fuel a b : (size b < fuel)%nat ->
  let '(g, u, v) := egcd fuel a b in peq g (padd (pmul u a) (pmul v b)) /\ divides g a /\ divides g b.
Proof.
  revert a b; induction fuel as [|f IH]; intros a b L; [lia|]. cbn [egcd]. destruct (norm b) as [|h t] eqn:N.
  - apply norm_nil in N. split; [ring|]. split; [apply divides_refl|]. apply (divides_ext _ []); [symmetry; exact N|apply divides_0].
  - assert (Nz : ~ peq b []) by (rewrite <- norm_nil, N; discriminate).
    destruct (pdiv_ok a b Nz) as [E Lt]. specialize (IH b (pmod a b)). destruct (egcd f b (pmod a b)) as [[g u] v].
    destruct IH as (G & D1 & D2); [lia|]. split; [|split; [|exact D1]].
    + rewrite G. rewrite E at 2. ring.
    + apply (divides_ext _ (padd (pmul (pdiv a b) b) (pmod a b))); [symmetry; exact E|].
      apply divides_padd; [apply divides_pmul, D1|exact D2].
Qed.
Lemma pgcd_ok a b : divides (pgcd a b) a /\ divides (pgcd a b) b /\ exists u v, peq (pgcd a b) (padd (pmul u a) (pmul v b)).
Proof.
  unfold pgcd. pose proof (egcd_ok (S (size b)) a b (Nat.lt_succ_diag_r _)) as H.
  destruct (egcd (S (size b)) a b) as [[g u] v]. cbn [fst]. destruct H as (A & B & C). eauto.
Qed.

(* ---- degrees of products: no zero divisors ---- *)
Lemma coef_top p q m n : (forall k, (m < k)%nat -> coef p k = 0) -> (forall k, (n < k)%nat -> coef q k = 0) ->
  coef (pmul p q) (m + n) = coef p m * coef q n /\ forall k, (m + n < k)%nat -> coef (pmul p q) k = 0.
Proof.
  revert m; induction p as [|a p IH]; intros m Hp Hq; [split; [|intros k _]; rewrite pmul_nil, !coef_nil; try reflexivity; ring|].
  destruct m as [|m].
  - assert (Z : peq p []) by (split; intros k; rewrite coef_nil; apply (Hp (S k)); lia).
    assert (E : peq (pmul (a :: p) q) (pscale a q)).
    { split; intros k. rewrite coef_pscale. destruct k; [rewrite coef_pmul_0; reflexivity|]. rewrite coef_pmul_S. rewrite (pmul_ext _ _ Z q q (reflexivity q)), pmul_nil, coef_nil. ring. }
    cbn [Nat.add]. split; [rewrite E, coef_pscale, coef_0; reflexivity|]. intros k Hk. rewrite E, coef_pscale, Hq by lia. ring.
  - destruct (IH m) as [A B]; [intros k Hk; apply (Hp (S k)); lia|exact Hq|].
    cbn [Nat.add]. split.
    + rewrite coef_pmul_S, coef_cons, A, (Hq (S (m + n))) by lia. ring.
    + intros k Hk. destruct k; [lia|]. rewrite coef_pmul_S, B, Hq by lia. ring.
Qed.
Lemma nz_mul (x y : K) : x <> 0 -> y <> 0 -> x * y <> 0.
Proof. intros X Y E. apply X. replace x with (x * y / y) by (field; exact Y). rewrite E. field. exact Y. Qed.
Lemma pmul_nz p q : ~ peq p [] -> ~ peq q [] -> ~ peq (pmul p q) [] /\ size (pmul p q) = (pred (size p) + pred (size q) + 1)%nat /\ lead (pmul p q) = lead p * lead q.
Proof.
  intros P Q. pose proof (proj1 (size_nil p)) as SP. pose proof (proj1 (size_nil q)) as SQ.
  assert (size p <> 0)%nat by (intros E; apply P, SP, E). assert (size q <> 0)%nat by (intros E; apply Q, SQ, E).
  destruct (coef_top p q (pred (size p)) (pred (size q))) as [A B]; [intros k Hk; apply size_above; lia|intros k Hk; apply size_above; lia|].
  assert (T : coef (pmul p q) (pred (size p) + pred (size q)) <> 0) by (rewrite A; apply nz_mul; apply lead_nz; assumption).
  assert (S1 : (size (pmul p q) <= pred (size p) + pred (size q) + 1)%nat) by (apply size_below; intros k Hk; apply B; lia).
  assert (S2 : (pred (size p) + pred (size q) < size (pmul p q))%nat).
  { destruct (le_lt_dec (size (pmul p q)) (pred (size p) + pred (size q))) as [L|L]; [|exact L]. exfalso. apply T, size_above, L. }
  split; [|split].
  - rewrite <- size_nil. lia.
  - lia.
  - unfold lead at 1. replace (pred (size (pmul p q))) with (pred (size p) + pred (size q))%nat by lia. exact A.
Qed.
Lemma psub_nil p q : peq (psub p q) [] -> peq p q.
Proof. intros H0; split; intros n. pose proof (H0 n) as H. rewrite coef_psub, coef_nil in H. replace (coef p n) with (coef p n - coef q n + coef q n) by ring. rewrite H. ring. Qed.
Lemma peq_dec p q : {peq p q} + {~ peq p q}.
Proof.
  destruct (norm (psub p q)) as [|h t] eqn:N.
  - left. apply psub_nil, norm_nil, N.
  - right. intros E. assert (Z : peq (psub p q) []) by (rewrite E; ring). apply norm_nil in Z. congruence.
Qed.
Lemma pmul_cancel c p q : ~ peq c [] -> peq (pmul c p) (pmul c q) -> peq p q.
Proof.
  intros C E. apply psub_nil. destruct (peq_dec (psub p q) []) as [D|D]; [exact D|]. exfalso.
  destruct (pmul_nz c (psub p q) C D) as [N _]. apply N.
  transitivity (psub (pmul c p) (pmul c q)); [ring|]. rewrite E. ring.
Qed.
(* monic polynomials that divide each other are equal *)
Lemma divides_monic a b : ~ peq a [] -> lead a = 1 -> lead b = 1 -> divides a b -> divides b a -> peq a b.
Proof.
  intros A La Lb [c C] [e E]. assert (N : peq (pmul e c) [1]).
  { apply (pmul_cancel a); [exact A|]. transitivity (pmul e (pmul c a)); [ring|]. rewrite <- C, <- E. ring. }
  assert (O : ~ peq [1] []) by (intros H0; pose proof (H0 0%nat) as H; rewrite coef_0, coef_nil in H; apply (F_1_neq_0 (fth K)), H).
  assert (C0 : ~ peq c []) by (intros H; apply O; rewrite <- N, H; apply pmul_nil_r).
  assert (E0 : ~ peq e []) by (intros H; apply O; rewrite <- N, H; reflexivity).
  destruct (pmul_nz e c E0 C0) as (_ & S & _). rewrite (size_ext _ _ N) in S.
  assert (S1 : size [1] = 1%nat). { unfold size. cbn [norm]. destruct (feqb 1 0) eqn:Z; [|reflexivity]. apply feqb_ok in Z. exfalso. apply (F_1_neq_0 (fth K)), Z. }
  rewrite S1 in S. assert (Sc : (size c <= 1)%nat) by (destruct (size c) eqn:W; lia).
  assert (Cc : peq c [lead c]).
  { split; intros [|n].
    - unfold lead. rewrite coef_0. replace (pred (size c)) with 0%nat by lia. reflexivity.
    - rewrite (size_above c) by lia. rewrite coef_cons, coef_nil. reflexivity. }
  destruct (pmul_nz c a C0 A) as (_ & _ & L). rewrite <- (lead_ext _ _ C), Lb, La in L.
  assert (lead c = 1) as X by (rewrite L; ring).
  rewrite C, Cc, X. ring.
Qed.

(* ---- values ---- *)
Lemma peval_ext p q t : peq p q -> peval p t = peval q t.
Proof.
  revert q; induction p as [|a p IH]; intros q H.
  - revert H; induction q as [|b q IHq]; intros H; [reflexivity|]. cbn [peval]. rewrite <- IHq.
    + pose proof (H 0%nat) as Z. rewrite coef_nil, coef_0 in Z. rewrite <- Z. cbn [peval]. ring.
    + split; intros n. pose proof (H (S n)) as H1. rewrite coef_cons, coef_nil in H1. rewrite coef_nil. exact H1.
  - destruct q as [|b q].
    + cbn [peval]. pose proof (H 0%nat) as Z. rewrite coef_nil, coef_0 in Z. rewrite Z, (IH []).
      * cbn [peval]. ring.
      * split; intros n. pose proof (H (S n)) as H1. rewrite coef_cons, coef_nil in H1. rewrite coef_nil. exact H1.
    + cbn [peval]. rewrite (IH q); [|split; intros n; apply (H (S n))]. f_equal. apply (H 0%nat).
Qed.
Lemma peval_padd p q t : peval (padd p q) t = peval p t + peval q t.
Proof. revert q; induction p as [|a p IH]; intros [|b q]; cbn [padd peval]; try rewrite IH; ring. Qed.
Lemma peval_pscale c p t : peval (pscale c p) t = c * peval p t.
Proof. induction p as [|a p IH]; cbn [pscale map peval]; [ring|]. fold (pscale c p). rewrite IH. ring. Qed.
Lemma peval_popp p t : peval (popp p) t = - peval p t.
Proof. induction p as [|a p IH]; cbn [popp map peval]; [ring|]. fold (popp p). rewrite IH. ring. Qed.
Lemma peval_psub p q t : peval (psub p q) t = peval p t - peval q t.
Proof. unfold psub. rewrite peval_padd, peval_popp. ring. Qed.
Lemma peval_pmul p q t : peval (pmul p q) t = peval p t * peval q t.
Proof. induction p as [|a p IH]; cbn [pmul peval]; [ring|]. rewrite peval_padd, peval_pscale. cbn [peval]. rewrite IH. ring. Qed.
Lemma leqb_ok p q : leqb p q = true <-> p = q.
Proof.
  revert q; induction p as [|a p IH]; intros [|b q]; cbn [leqb]; try (split; [discriminate|discriminate]); [tauto|].
  rewrite andb_true_iff, feqb_ok, IH. split; [intros [-> ->]; reflexivity|intros H; injection H; auto].
Qed.
End Pol.
