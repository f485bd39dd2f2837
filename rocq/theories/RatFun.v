(* Rational functions in one variable over a field, in lowest terms with a monic
   denominator, and towers of them: the field in which sympy expressions of the symbols
   a1, b1, c1, d1, ... (particles.py:194-222) take their values.  Simplification: two sympy
   expressions with equal values are the same element here. *)
From Coq Require Import List ZArith Bool Lia Ring Field Setoid Morphisms Eqdep_dec.
From Verif Require Import Base Fld RatPoly.
Import ListNotations.

Section RatFun.
Context {K : Fld}.
Open Scope fld_scope.
Add Field Krf1 : (fth K).
Notation pol := (list K).
Add Ring PolR2 : (pol_ring (K := K)) (setoid (peq_equiv (K := K)) (pol_ext (K := K))).

(* lowest terms; sympy.cancel; expressions of particles.py:198-222 *)
Definition rf_ok (f : pol * pol) : bool :=
  leqb (norm (fst f)) (fst f) && leqb (norm (snd f)) (snd f) && feqb (lead (snd f)) 1 && Nat.eqb (size (pgcd (fst f) (snd f))) 1.
(* an expression: numerator and denominator; sympy.fraction; expressions of particles.py:198-222 *)
Record rf := Rf { rf_pair : pol * pol; rf_is : rf_ok rf_pair = true }.
(* sympy.cancel; expressions of particles.py:198-222 *)
Definition canon (f : pol * pol) : pol * pol :=
  let g := pgcd (fst f) (snd f) in
  let n := pdiv (fst f) g in
  let d := pdiv (snd f) g in
  (norm (pscale (1 / lead d) n), norm (pscale (1 / lead d) d)).

(* equal as fractions; expressions of particles.py:198-222 *)
Definition req (f g : pol * pol) : Prop := peq (pmul (fst f) (snd g)) (pmul (fst g) (snd f)).
(* arithmetic of the expressions of particles.py:198-222 *)
Definition good (f : pol * pol) : Prop := ~ peq (snd f) [].
Lemma one_nz : (1 : K) <> 0. Proof. apply (F_1_neq_0 (fth K)). Qed.
Lemma pone_nz : ~ peq [(1 : K)] [].
Proof. intros H. apply one_nz. apply (H 0%nat). Qed.
Lemma size_one : size [(1 : K)] = 1%nat.
Proof. unfold size. cbn [norm]. destruct (feqb (1 : K) 0) eqn:Z; [|reflexivity]. apply feqb_ok in Z. exfalso. apply one_nz, Z. Qed.
Lemma req_refl f : req f f. Proof. unfold req. ring. Qed.
Lemma req_sym f g : req f g -> req g f. Proof. unfold req. intros H. symmetry. exact H. Qed.
Lemma req_trans f g h : good g -> req f g -> req g h -> req f h.
Proof.
  unfold req, good. intros G A B. apply (pmul_cancel (snd g)); [exact G|].
  transitivity (pmul (pmul (fst f) (snd g)) (snd h)); [ring|]. rewrite A.
  transitivity (pmul (pmul (fst g) (snd h)) (snd f)); [ring|]. rewrite B. ring.
Qed.

Lemma single_mul (x y : K) : peq (pmul [x] [y]) [x * y].
Proof. split; intros [|n]; [rewrite coef_pmul_0, !coef_0; reflexivity|]. rewrite coef_pmul_S, pmul_nil, !coef_cons, !coef_nil. ring. Qed.

(* exact division *)
Lemma divides_pdiv (a b : pol) : ~ peq b [] -> divides b a -> peq a (pmul (pdiv a b) b).
Proof.
  intros B [c C]. destruct (pdiv_ok a b B) as [E L].
  destruct (peq_dec (psub c (pdiv a b)) []) as [D|D].
  - rewrite C at 1. rewrite (psub_nil _ _ D). reflexivity.
  - exfalso. destruct (pmul_nz (psub c (pdiv a b)) b D B) as (_ & S & _).
    assert (R : peq (pmod a b) (pmul (psub c (pdiv a b)) b)).
    { transitivity (psub (padd (pmul (pdiv a b) b) (pmod a b)) (pmul (pdiv a b) b)); [ring|]. rewrite <- E. rewrite C at 1. ring. }
    rewrite (size_ext _ _ R), S in L. assert (size b <> 0%nat) by (rewrite size_nil; exact B). lia.
Qed.
Lemma divides_one (g : pol) : divides g [1] -> size g = 1%nat.
Proof.
  intros [c C]. assert (G : ~ peq g []) by (intros H; apply pone_nz; rewrite C, H; apply pmul_nil_r).
  assert (C0 : ~ peq c []) by (intros H; apply pone_nz; rewrite C, H; reflexivity).
  destruct (pmul_nz c g C0 G) as (_ & S & _). rewrite <- (size_ext _ _ C), size_one in S.
  assert (size g <> 0%nat) by (rewrite size_nil; exact G). lia.
Qed.
(* arithmetic of the expressions of particles.py:198-222 *)
Definition coprime (n d : pol) : Prop := exists u v, peq (padd (pmul u n) (pmul v d)) [1].
Lemma coprime_size n d : coprime n d <-> size (pgcd n d) = 1%nat.
Proof.
  destruct (pgcd_ok n d) as (D1 & D2 & u & v & E). split.
  - intros (a & b & H). apply divides_one. apply (divides_ext _ _ _ H). apply divides_padd; apply divides_pmul; assumption.
  - intros S. set (g := pgcd n d) in *. assert (G : ~ peq g []) by (rewrite <- size_nil; lia).
    assert (L : peq g [lead g]).
    { split; intros [|k].
      - unfold lead. rewrite coef_0, S. reflexivity.
      - rewrite (size_above g) by lia. rewrite coef_cons, coef_nil. reflexivity. }
    pose proof (lead_nz g G) as Z.
    exists (pscale (1 / lead g) u), (pscale (1 / lead g) v). rewrite !pscale_pmul.
    transitivity (pmul [1 / lead g] (padd (pmul u n) (pmul v d))); [ring|]. rewrite <- E. rewrite L at 2.
    split; intros [|k].
    + rewrite coef_pmul_0, !coef_0. field. exact Z.
    + rewrite coef_pmul_S, pmul_nil, !coef_cons, !coef_nil. ring.
Qed.
(* reduced fractions that are equal have the same numerator and denominator *)
Lemma coprime_divides n d n' d' : coprime n d -> peq (pmul n d') (pmul n' d) -> divides d d'.
Proof.
  intros (u & v & H) E. exists (padd (pmul u n') (pmul v d')).
  transitivity (pmul [1] d'); [ring|]. rewrite <- H.
  transitivity (padd (pmul u (pmul n d')) (pmul v (pmul d d'))); [ring|]. rewrite E. ring.
Qed.
Lemma reduced_unique f g : rf_ok f = true -> rf_ok g = true -> req f g -> f = g.
Proof.
  destruct f as [n d], g as [n' d']. unfold rf_ok, req. cbn [fst snd]. rewrite !andb_true_iff, !leqb_ok, !feqb_ok, !Nat.eqb_eq.
  intros [[[A B] C] D] [[[A' B'] C'] D'] E.
  apply coprime_size in D, D'.
  assert (Nz : forall x : pol, lead x = 1 -> ~ peq x []).
  { intros x X H. apply one_nz. rewrite <- X, (lead_ext _ _ H). reflexivity. }
  assert (ED : peq d d').
  { apply divides_monic; [apply Nz, C|exact C|exact C'| |].
    - apply (coprime_divides n d n' d'); assumption.
    - apply (coprime_divides n' d' n d); [assumption|symmetry; exact E]. }
  assert (EN : peq n n').
  { apply (pmul_cancel d); [apply Nz, C|]. transitivity (pmul n d); [ring|]. rewrite ED at 1. rewrite E. ring. }
  apply norm_ext in ED. apply norm_ext in EN. congruence.
Qed.
Lemma canon_ok f : good f -> rf_ok (canon f) = true /\ req (canon f) f /\ good (canon f).
Proof.
  destruct f as [n d]. unfold good, canon. cbn [fst snd]. intros G. set (g := pgcd n d).
  destruct (pgcd_ok n d) as (D1 & D2 & u & v & E). fold g in D1, D2, E.
  assert (G0 : ~ peq g []) by (intros H; apply G; destruct D2 as [c C]; rewrite C, H; apply pmul_nil_r).
  pose proof (divides_pdiv n g G0 D1) as N. pose proof (divides_pdiv d g G0 D2) as D.
  set (n1 := pdiv n g) in *. set (d1 := pdiv d g) in *.
  assert (Z : ~ peq d1 []) by (intros H; apply G; rewrite D, H; reflexivity).
  pose proof (lead_nz d1 Z) as L. set (c := 1 / lead d1).
  assert (Cz : ~ peq [c] []).
  { intros H. pose proof (H 0%nat) as H0. rewrite coef_0, coef_nil in H0. apply one_nz. replace (1 : K) with (c * lead d1) by (unfold c; field; exact L). rewrite H0. ring. }
  assert (Ld : lead (norm (pscale c d1)) = 1).
  { rewrite (lead_ext _ _ (norm_peq _)), (lead_ext _ _ (pscale_pmul c d1)).
    destruct (pmul_nz [c] d1 Cz Z) as (_ & _ & ->). replace (lead [c]) with c; [unfold c; field; exact L|].
    unfold lead. destruct (size [c]) as [|k] eqn:S; [reflexivity|]. destruct k; [reflexivity|]. exfalso.
    assert (size [c] <= 1)%nat; [|lia]. apply size_below. intros j Hj. destruct j; [lia|]. rewrite coef_cons. apply coef_nil. }
  assert (Gd : ~ peq (norm (pscale c d1)) []).
  { rewrite norm_peq, pscale_pmul. apply (pmul_nz [c] d1 Cz Z). }
  split; [|split].
  - unfold rf_ok. cbn [fst snd]. rewrite !norm_idem, !andb_true_iff, !leqb_ok, feqb_ok, Nat.eqb_eq.
    split; [split; [split; [reflexivity|reflexivity]|exact Ld]|]. apply coprime_size.
    assert (Co : peq (padd (pmul u n1) (pmul v d1)) [1]).
    { apply (pmul_cancel g); [exact G0|]. transitivity (padd (pmul u (pmul n1 g)) (pmul v (pmul d1 g))); [ring|]. rewrite <- N, <- D, <- E. ring. }
    exists (pscale (lead d1) u), (pscale (lead d1) v). rewrite !norm_peq, !pscale_pmul.
    transitivity (pmul (pmul [lead d1] [c]) (padd (pmul u n1) (pmul v d1))); [ring|]. rewrite Co.
    rewrite single_mul. replace (lead d1 * c) with (1 : K) by (unfold c; field; exact L). ring.
  - unfold req. cbn [fst snd]. rewrite !norm_peq, !pscale_pmul. rewrite D, N. ring.
  - exact Gd.
Qed.
Lemma rf_good (f : rf) : good (rf_pair f).
Proof.
  destruct f as [[n d] H]. unfold good. cbn [rf_pair snd]. unfold rf_ok in H. cbn [fst snd] in H.
  rewrite !andb_true_iff, !feqb_ok in H. intros Z. apply one_nz. rewrite <- (proj2 (proj1 H)), (lead_ext _ _ Z). reflexivity.
Qed.
Lemma rf_ext (f g : rf) : req (rf_pair f) (rf_pair g) -> f = g.
Proof.
  intros H. pose proof (reduced_unique _ _ (rf_is f) (rf_is g) H) as E. destruct f as [p P], g as [p' P']. cbn [rf_pair] in *. subst p'.
  f_equal. apply UIP_dec. decide equality.
Qed.
(* an expression from any fraction; the denominator zero gives zero; expressions of particles.py:198-222 *)
Definition mk (f : pol * pol) : pol * pol := match norm (snd f) with [] => ([], [1]) | _ => canon f end.
Lemma one_ok : rf_ok ([], [1]) = true.
Proof.
  assert (G : good ([], [(1 : K)])) by (apply pone_nz).
  destruct (canon_ok _ G) as (A & B & C).
  unfold rf_ok. cbn [fst snd]. rewrite !andb_true_iff, !leqb_ok, feqb_ok, Nat.eqb_eq.
  assert (N1 : norm [(1 : K)] = [1]) by (cbn [norm]; destruct (feqb (1 : K) 0) eqn:Z; [apply feqb_ok in Z; exfalso; apply one_nz, Z|reflexivity]).
  split; [split; [split; [reflexivity|exact N1]|]|].
  - unfold lead, size. rewrite N1. reflexivity.
  - apply coprime_size. exists [], [1]. ring.
Qed.
Lemma mk_ok f : rf_ok (mk f) = true.
Proof.
  unfold mk. destruct (norm (snd f)) eqn:N; [apply one_ok|]. apply canon_ok. unfold good. rewrite <- norm_nil, N. discriminate.
Qed.
(* arithmetic of the expressions of particles.py:198-222 *)
Definition rmk (f : pol * pol) : rf := Rf (mk f) (mk_ok f).
Lemma rmk_req f : good f -> req (rf_pair (rmk f)) f.
Proof.
  intros G. cbn [rmk rf_pair]. unfold mk. destruct (norm (snd f)) eqn:N; [|apply canon_ok, G]. exfalso. apply G, norm_nil, N.
Qed.
Lemma rmk_ext f g : good f -> good g -> req f g -> rmk f = rmk g.
Proof.
  intros F G E. apply rf_ext. eapply req_trans; [exact F|apply rmk_req, F|]. eapply req_trans; [exact G|exact E|]. apply req_sym, rmk_req, G.
Qed.
Lemma rmk_pair f : rmk (rf_pair f) = f.
Proof. apply rf_ext, rmk_req, rf_good. Qed.
Lemma rmk_eq f g : good f -> rmk f = g <-> req f (rf_pair g).
Proof.
  intros F. split.
  - intros <-. apply req_sym, rmk_req, F.
  - intros E. rewrite <- (rmk_pair g). apply rmk_ext; [exact F|apply rf_good|exact E].
Qed.

(* operations on fractions; sympy.Add, sympy.Mul, sympy.Pow(x, -1); expressions of particles.py:198-222 *)
Definition addp (f g : pol * pol) := (padd (pmul (fst f) (snd g)) (pmul (fst g) (snd f)), pmul (snd f) (snd g)).
(* arithmetic of the expressions of particles.py:198-222 *)
Definition mulp (f g : pol * pol) := (pmul (fst f) (fst g), pmul (snd f) (snd g)).
(* arithmetic of the expressions of particles.py:198-222 *)
Definition oppp (f : pol * pol) := (popp (fst f), snd f).
(* arithmetic of the expressions of particles.py:198-222 *)
Definition subp (f g : pol * pol) := addp f (oppp g).
(* arithmetic of the expressions of particles.py:198-222 *)
Definition invp (f : pol * pol) := (snd f, fst f).
Lemma addp_good f g : good f -> good g -> good (addp f g). Proof. intros F G. exact (proj1 (pmul_nz _ _ F G)). Qed.
Lemma mulp_good f g : good f -> good g -> good (mulp f g). Proof. intros F G. exact (proj1 (pmul_nz _ _ F G)). Qed.
Lemma addp_req f f' g g' : req f f' -> req g g' -> req (addp f g) (addp f' g').
Proof.
  unfold req, addp. cbn [fst snd]. intros A B.
  transitivity (padd (pmul (pmul (fst f) (snd f')) (pmul (snd g) (snd g'))) (pmul (pmul (fst g) (snd g')) (pmul (snd f) (snd f')))); [ring|].
  rewrite A, B. ring.
Qed.
Lemma mulp_req f f' g g' : req f f' -> req g g' -> req (mulp f g) (mulp f' g').
Proof.
  unfold req, mulp. cbn [fst snd]. intros A B.
  transitivity (pmul (pmul (fst f) (snd f')) (pmul (fst g) (snd g'))); [ring|]. rewrite A, B. ring.
Qed.
Lemma oppp_req f f' : req f f' -> req (oppp f) (oppp f').
Proof. unfold req, oppp. cbn [fst snd]. intros A. transitivity (popp (pmul (fst f) (snd f'))); [ring|]. rewrite A. ring. Qed.

(* arithmetic of the expressions of particles.py:198-222 *)
Definition rf0 : rf := rmk ([], [1]).
(* arithmetic of the expressions of particles.py:198-222 *)
Definition rf1 : rf := rmk ([1], [1]).
(* arithmetic of the expressions of particles.py:198-222 *)
Definition rfadd (f g : rf) : rf := rmk (addp (rf_pair f) (rf_pair g)).
(* arithmetic of the expressions of particles.py:198-222 *)
Definition rfmul (f g : rf) : rf := rmk (mulp (rf_pair f) (rf_pair g)).
(* arithmetic of the expressions of particles.py:198-222 *)
Definition rfopp (f : rf) : rf := rmk (oppp (rf_pair f)).
(* arithmetic of the expressions of particles.py:198-222 *)
Definition rfsub (f g : rf) : rf := rfadd f (rfopp g).
(* arithmetic of the expressions of particles.py:198-222 *)
Definition rfinv (f : rf) : rf := rmk (invp (rf_pair f)).
(* arithmetic of the expressions of particles.py:198-222 *)
Definition rfdiv (f g : rf) : rf := rfmul f (rfinv g).
Lemma v0 : req (rf_pair rf0) ([], [1]). Proof. apply rmk_req, pone_nz. Qed.
Lemma v1 : req (rf_pair rf1) ([1], [1]). Proof. apply rmk_req, pone_nz. Qed.
Lemma vadd f g : req (rf_pair (rfadd f g)) (addp (rf_pair f) (rf_pair g)). Proof. apply rmk_req, addp_good; apply rf_good. Qed.
Lemma vmul f g : req (rf_pair (rfmul f g)) (mulp (rf_pair f) (rf_pair g)). Proof. apply rmk_req, mulp_good; apply rf_good. Qed.
Lemma vopp f : req (rf_pair (rfopp f)) (oppp (rf_pair f)). Proof. apply rmk_req. exact (rf_good f). Qed.
(* f and the fraction p are the same *)
Lemma same (f g : rf) p q : req (rf_pair f) p -> req (rf_pair g) q -> good p -> good q -> req p q -> f = g.
Proof.
  intros A B P Q E. apply rf_ext. eapply req_trans; [exact P|exact A|]. eapply req_trans; [exact Q|exact E|]. apply req_sym, B.
Qed.
Lemma via f p q : req (rf_pair f) p -> good p -> req p q -> req (rf_pair f) q.
Proof. intros A P E. eapply req_trans; [exact P|exact A|exact E]. Qed.
Ltac gd := repeat (first [exact pone_nz | apply rf_good | apply addp_good | apply mulp_good | (match goal with |- good (oppp _) => change (good (oppp ?f)) with (good f) end)]).
Lemma rf_theory : field_theory rf0 rf1 rfadd rfmul rfsub rfopp rfdiv rfinv eq.
Proof.
  assert (G01 : good ([], [(1 : K)])) by exact pone_nz. assert (G11 : good ([(1 : K)], [1])) by exact pone_nz.
  assert (Ga := addp_good). assert (Gm := mulp_good). assert (Gf := rf_good).
  assert (Go : forall f, good f -> good (oppp f)) by (intros f F; exact F).
  assert (V2 : forall f g p q, req (rf_pair f) p -> req (rf_pair g) q -> good p -> good q -> req (rf_pair (rfadd f g)) (addp p q)).
  { intros f g p q A B P Q. eapply via; [apply vadd|auto|]. apply addp_req; assumption. }
  assert (V3 : forall f g p q, req (rf_pair f) p -> req (rf_pair g) q -> good p -> good q -> req (rf_pair (rfmul f g)) (mulp p q)).
  { intros f g p q A B P Q. eapply via; [apply vmul|auto|]. apply mulp_req; assumption. }
  split; [split| | |].
  - intros x. apply (same _ _ (addp ([], [1]) (rf_pair x)) (rf_pair x)); auto using v0, req_refl. unfold req, addp. cbn [fst snd]. ring.
  - intros x y. eapply same; [apply vadd|apply vadd|auto|auto|]. unfold req, addp. cbn [fst snd]. ring.
  - intros x y z. eapply same; [apply V2; [apply req_refl|apply vadd|auto|auto]|apply V2; [apply vadd|apply req_refl|auto|auto]|auto|auto|].
    unfold req, addp. cbn [fst snd]. ring.
  - intros x. apply (same _ _ (mulp ([1], [1]) (rf_pair x)) (rf_pair x)); auto using v1, req_refl. unfold req, mulp. cbn [fst snd]. ring.
  - intros x y. eapply same; [apply vmul|apply vmul|auto|auto|]. unfold req, mulp. cbn [fst snd]. ring.
  - intros x y z. eapply same; [apply V3; [apply req_refl|apply vmul|auto|auto]|apply V3; [apply vmul|apply req_refl|auto|auto]|auto|auto|].
    unfold req, mulp. cbn [fst snd]. ring.
  - intros x y z. eapply same; [apply V3; [apply vadd|apply req_refl|auto|auto]|apply V2; [apply vmul|apply vmul|auto|auto]|auto|auto|].
    unfold req, mulp, addp. cbn [fst snd]. ring.
  - reflexivity.
  - intros x. eapply same; [apply V2; [apply req_refl|apply vopp|auto|auto]|apply v0|auto|auto|].
    unfold req, addp, oppp. cbn [fst snd]. ring.
  - intros H. pose proof v1 as A. rewrite H in A. pose proof (req_trans _ _ _ (rf_good rf0) (req_sym _ _ A) v0) as B.
    unfold req in B. cbn [fst snd] in B. apply pone_nz. transitivity (pmul [1] [(1 : K)]); [ring|]. rewrite B. reflexivity.
  - reflexivity.
  - intros x Nz. assert (Gi : good (invp (rf_pair x))).
    { intros Z. apply Nz. eapply (same _ _ (rf_pair x) ([], [1])); auto using v0, req_refl. unfold req. cbn [fst snd]. unfold invp in Z. cbn [snd] in Z. rewrite Z. reflexivity. }
    eapply (same _ _ (mulp (invp (rf_pair x)) (rf_pair x)) ([1], [1])); auto using v1.
    + apply V3; auto using req_refl. apply rmk_req, Gi.
    + unfold req, mulp, invp. cbn [fst snd]. ring.
Qed.
(* == of sympy expressions in normal form; expressions of particles.py:198-222 *)
Definition rfeqb (f g : rf) : bool := leqb (fst (rf_pair f)) (fst (rf_pair g)) && leqb (snd (rf_pair f)) (snd (rf_pair g)).
Lemma rfeqb_ok f g : rfeqb f g = true <-> f = g.
Proof.
  unfold rfeqb. rewrite andb_true_iff, !leqb_ok. split; [|intros ->; auto].
  intros [A B]. apply rf_ext. unfold req. rewrite A, B. reflexivity.
Qed.
(* numbers as expressions; sympify; expressions of particles.py:198-222 *)
Definition rconst (x : K) : rf := rmk ([x], [1]).
(* the symbol; expressions of particles.py:198-222 *)
Definition rvar : rf := rmk ([0; 1], [1]).
Lemma vconst x : req (rf_pair (rconst x)) ([x], [1]). Proof. apply rmk_req, pone_nz. Qed.
Lemma rf_two : rfadd rf1 rf1 <> rf0.
Proof.
  intros H. apply (f2_nz K).
  assert (A : req (addp ([1], [1]) ([1], [1])) ([], [(1 : K)])).
  { eapply req_trans; [apply (rf_good rf0)|rewrite <- H|apply v0]. apply req_sym. eapply via; [apply vadd|apply addp_good; apply rf_good|]. apply addp_req; apply v1. }
  unfold req, addp in A. cbn [fst snd] in A. pose proof (A 0%nat) as B. cbn in B. rewrite !coef_0 in B || idtac. 
  transitivity ((1 * 1 + 0 + (1 * 1 + 0)) * 1 + 0 : K); [ring|]. first [exact B | (etransitivity; [|exact B]; ring)].
Qed.
Lemma rconst_mul x y : rfmul (rconst x) (rconst y) = rconst (x * y).
Proof.
  eapply same; [eapply via; [apply vmul|apply mulp_good; apply rf_good|apply mulp_req; apply vconst]|apply vconst| | |].
  - apply mulp_good; exact pone_nz.
  - exact pone_nz.
  - unfold req, mulp. cbn [fst snd]. split; intros [|[|n]]; cbn; unfold coef; cbn; ring || (destruct n; cbn; ring).
Qed.
Lemma rconst_opp x : rfopp (rconst x) = rconst (- x).
Proof.
  eapply same; [eapply via; [apply vopp|exact (rf_good (rconst x))|apply oppp_req; apply vconst]|apply vconst| | |].
  - exact pone_nz.
  - exact pone_nz.
  - unfold req, oppp. cbn [fst snd popp map]. reflexivity.
Qed.
Lemma rf_imag i : option_map rconst (fimag (f := K)) = Some i -> rfmul i i = rfopp rf1.
Proof.
  destruct fimag as [j|] eqn:E; cbn [option_map]; [|discriminate]. intros H. injection H as <-.
  rewrite rconst_mul, (fimag_ok K j E). change rf1 with (rconst 1). rewrite rconst_opp. reflexivity.
Qed.
Lemma rf_sqrt (x y : rf) : None = Some y -> rfmul y y = x. Proof. discriminate. Qed.
(* field.sqrt of a symbolic expression raises; expressions of particles.py:198-222 *)
Definition RatFun : Fld :=
  mkFld rf rf0 rf1 rfadd rfmul rfsub rfopp rfdiv rfinv rf_theory rfeqb rfeqb_ok rf_two (fun _ => None) rf_sqrt (option_map rconst fimag) rf_imag.
End RatFun.
Arguments RatFun K : clear implicits.
Arguments rf K : clear implicits.
