(* C67-C72: setting a bracket and a chain, or two three-brackets. *)
From Coq Require Import List ZArith Bool Lia Permutation.
From Verif Require Import Base Fld Particle ParticleSpec ParticleThm Index IndexThm Phase PhaseSpec PhaseThm Arcs ArcsSpec Compute ComputeSpec ComputeThm FldInst ModP SymmThm
  Tr5 SetOne SetSpec SetThm SetThm2 SetPair SetPairSpec SetPairThm SetPairMore SetMoreSpec SetMoreThm SetMoreThm2 SetMoreThm3 SetMoreThm4 SetMoreThm5 SetMoreThm6.
Import ListNotations.
Open Scope fld_scope.

(* points with seven, six and four massless legs *)
Lemma odd1009b : (1009 <> 2)%Z. Proof. discriminate. Qed.
Definition GFM : Fld := GFF 1009 (primeb_ok 1009 eq_refl) odd1009b.
Definition gM (n : Z) : GFM := gmk 1009 (primeb_ok 1009 eq_refl) odd1009b n.
Definition spM (l : list (Z * Z * (Z * Z))) : ps GFM := from_spinors (map (fun x => (V2 (gM (fst (fst x))) (gM (snd (fst x))), V2 (gM (fst (snd x))) (gM (snd (snd x))))) l).
Definition m7 : ps GFM := spM [((798, 264), (926, 294)); ((585, 290), (499, 257)); ((869, 436), (538, 600)); ((713, 296), (566, 442)); ((326, 565), (302, 323)); ((232, 153), (828, 39)); ((374, 338), (475, 100))]%Z.
Definition m6 : ps GFM := spM [((798, 264), (926, 294)); ((585, 290), (499, 257)); ((869, 436), (538, 600)); ((713, 296), (566, 442)); ((326, 565), (757, 525)); ((232, 153), (850, 734))]%Z.
Definition m4 : ps GFM := spM [((798, 264), (926, 294)); ((585, 290), (499, 257)); ((869, 436), (101, 800)); ((713, 296), (534, 87))]%Z.
Definition ns20 : list Z -> list Z := nodup Z.eq_dec.
Lemma ns20_set : set_like ns20.
Proof. intros l. split; [apply NoDup_nodup|intros x; apply nodup_In]. Qed.
Lemma from_spinors_fresh20 {K : Fld} (l : list (v2 K * v2 K)) : Forall (fun p => fresh p) (from_spinors l).
Proof.
  apply Forall_forall. intros p Hp. apply in_map_iff in Hp as (x & <- & _). pose proof (new_spinors_good (fst x) (snd x)) as H. cbn in H.
  split; [|split]; tauto.
Qed.
Lemma spM_fresh l : Forall (fun p => fresh p) (spM l).
Proof. apply from_spinors_fresh20. Qed.
Lemma m7_total : total_mom m7 = mzero. Proof. fcomp. Qed.
Lemma m6_total : total_mom m6 = mzero. Proof. fcomp. Qed.
Lemma m4_total : total_mom m4 = mzero. Proof. fcomp. Qed.
(* the two long formulas are not needed here *)
Definition no_expr {K : Fld} : list K -> K -> K -> result K := fun _ _ _ => Err OtherException.
Definition set2 (t1 : target) (v1 : Z) (t2 : target) (v2 : Z) (s : ps GFM) : ps GFM * result unit := set_pair_all Symmetric ns20 no_expr no_expr 5 t1 (gM v1) t2 (gM v2) s.
Ltac rng := match goal with |- context [Z.of_nat (length ?s)] => let n := eval vm_compute in (Z.of_nat (length s)) in change (Z.of_nat (length s)) with n end.
Ltac gchain := split; [discriminate|]; split; [reflexivity|]; split; [discriminate|]; rng; split;
  [repeat (apply Forall_cons; [split; [discriminate|split; [repeat (apply NoDup_cons; [cbn; lia|]); apply NoDup_nil|let k := fresh in intros k; cbn; lia]]|]); apply Forall_nil|lia].
Ltac nzt20 := match goal with |- nz ?r => exists (get_ok (0 : GFM) r) end; split; [fok|fneq].

Definition eqM (r : result GFM) (x : GFM) : bool := match r with Ok y => feqb y x | _ => false end.
Lemma eqM_no r x : eqM r x = false -> r <> Ok x.
Proof. intros H ->. unfold eqM in H. rewrite (feqb_refl (K := GFM)) in H. discriminate. Qed.
Lemma pmb r (x : GFM) : (eqM r x || eqM r (- x))%bool = false -> ~ plus_minus r x.
Proof. intros H [E|E]; apply orb_false_iff in H as [H1 H2]; [revert E|revert E]; apply eqM_no; assumption. Qed.
Lemma on_shellb (s : ps GFM) : (meqb (total_mom s) mzero && forallb (fun p => feqb (lsq p) 0) s)%bool = true -> on_shell_point s.
Proof.
  intros H. apply andb_true_iff in H as [A B]. split; [apply meqb_ok; exact A|]. apply Forall_forall. intros p Hp.
  rewrite forallb_forall in B. apply (feqb_ok GFM). apply B. exact Hp.
Qed.

(* ---- C67: _can_fix_mom_cons ---- *)
Theorem C67_sound :
  forall (so : list Z -> list Z) (n : nat) (an : bool) (a b : Z) (o : obr) (sa : Z) (ms : list (list Z)) (e : Z) (c : cbr) (p q axis : Z), set_like so ->
  (forall k, In k [a; b; sa; e] -> (1 <= k <= Z.of_nat n)%Z) -> o <> OLt -> c = end_of o (length ms) ->
  can_fix so n an a b (o, sa, ms, e, c) = Ok (Some (p, q, axis)) ->
  choice n p q axis /\ (spared_two an a b axis p /\ spared_two an a b axis q) /\ (spared_chain o sa ms e c axis p /\ spared_chain o sa ms e c axis q).
Proof. exact can_fix_sound. Qed.
Print Assumptions C67_sound.
(* what is so returned restores momentum conservation and keeps both values *)
Theorem C67_restores :
  forall (K : Fld) (cv : convention) (so : list Z -> list Z) (s : ps K) (an : bool) (a b : Z) (o : obr) (sa : Z) (ms : list (list Z)) (e : Z) (c : cbr) (p q axis : Z),
  set_like so -> Forall (fun x => fresh x) s -> inr s a -> inr s b -> good_chain (length s) o sa ms e c ->
  can_fix so (length s) an a b (o, sa, ms, e, c) = Ok (Some (p, q, axis)) ->
  fixm cv p q axis s = (s, Err ZeroDivisionError) \/
  exists s', fixm cv p q axis s = (s', Ok tt) /\ restored s s' p q [two an a b; chain_t o sa ms e c].
Proof.
  intros K cv so s an a b o sa ms e c p q axis SO F Ia Ib G E. pose proof G as (Ho & Hc & Hms & Hm & Hs & He).
  destruct (can_fix_sound so (length s) an a b o sa ms e c p q axis SO) as (CH & [T1 T2] & [C1 C2]); [|exact Ho|exact Hc|exact E|].
  { intros k [<-|[<-|[<-|[<-|[]]]]]; assumption. }
  apply fix_restores; [exact F|exact CH|]. intros t [<-|[<-|[]]].
  - left. exists an, a, b. tauto.
  - right. left. exists o, sa, ms, e, c. split; [reflexivity|]. split; [exact Hs|]. split; [exact He|].
    split; [apply (good_entries s o sa ms e c G)|]. tauto.
Qed.
Print Assumptions C67_restores.
(* with one free leg nothing is overlooked *)
Theorem C67_complete :
  forall (so : list Z -> list Z) (n : nat) (an : bool) (a b : Z) (o : obr) (sa : Z) (ms : list (list Z)) (e : Z) (c : cbr) (x q axis : Z),
  set_like so -> o <> OLt -> c = end_of o (length ms) ->
  free_legs n ([a; b] ++ sa :: concat ms ++ [e]) = [x] -> can_fix so n an a b (o, sa, ms, e, c) = Ok None ->
  (1 <= q <= Z.of_nat n)%Z -> q <> x -> ~ (spared_two an a b axis q /\ spared_chain o sa ms e c axis q).
Proof. exact can_fix_complete. Qed.
Print Assumptions C67_complete.
(* <1|2> and <3|(4+5)|1] at six legs: the free leg 6 and leg 2; <1|2> and <2|(1)|1] at three:
   every other leg is in use in both ways *)
Example C67_ex : can_fix ns20 6 true 1 2 (OAng, 3, [[4; 5]], 1, CSq)%Z = Ok (Some (6, 2, 2)%Z) /\
  free_legs 3 ([1; 2] ++ 2 :: concat [[1]] ++ [1])%Z = [3]%Z /\ can_fix ns20 3 true 1 2 (OAng, 2, [[1]; [2]], 1, CAng)%Z = Ok None /\
  snd (fixm Symmetric 6 2 2 m6) = Ok tt.
Proof. repeat (split; [vm_compute; reflexivity|]). vm_compute. reflexivity. Qed.
(* without a free leg nothing is found for a bracket and a chain that have no leg in common:
   <1|2> and <3|(4+5)|6] at six legs, where |1] and |3] may be changed *)
Theorem C67_no_free_refuted :
  exists (n : nat) (a b : Z) (sa : Z) (ms : list (list Z)) (e p q axis : Z),
  good_chain n OAng sa ms e CSq /\ can_fix ns20 n true a b (OAng, sa, ms, e, CSq) = Ok None /\ choice n p q axis /\
  (spared_two true a b axis p /\ spared_two true a b axis q) /\ (spared_chain OAng sa ms e CSq axis p /\ spared_chain OAng sa ms e CSq axis q).
Proof.
  exists 6%nat, 1%Z, 2%Z, 3%Z, [[4; 5]]%Z, 6%Z, 1%Z, 3%Z, 2%Z. split.
  { split; [discriminate|]. split; [reflexivity|]. split; [discriminate|]. split; [|lia].
    constructor; [|constructor]. split; [discriminate|]. split; [repeat constructor; cbn; lia|]. intros k Hk. cbn in Hk. lia. }
  split; [vm_compute; reflexivity|]. split; [unfold choice; lia|]. unfold spared_two, spared_chain, square_changed. cbn. repeat split; intros; try reflexivity; try lia.
Qed.
Print Assumptions C67_no_free_refuted.

(* ---- C68: _how_to_fix_mom_cons of two three-brackets ---- *)
Theorem C68_sound :
  forall (so : list Z -> list Z) (n : nat) (an0 : bool) (s0 : Z) (m0 : list Z) (e0 : Z) (an1 : bool) (s1 : Z) (m1 : list Z) (e1 p q axis : Z), set_like so ->
  (forall k, In k [s0; e0; s1; e1] -> (1 <= k <= Z.of_nat n)%Z) ->
  how3 so n (an0, s0, m0, e0) (an1, s1, m1, e1) = Ok (Some (p, q, axis)) ->
  m0 <> [] /\ m1 <> [] /\ choice n p q axis /\
  (spared_three an0 s0 m0 e0 axis p /\ spared_three an0 s0 m0 e0 axis q) /\ (spared_three an1 s1 m1 e1 axis p /\ spared_three an1 s1 m1 e1 axis q).
Proof. exact how3_sound. Qed.
Print Assumptions C68_sound.
Theorem C68_restores :
  forall (K : Fld) (cv : convention) (so : list Z -> list Z) (s : ps K) (an0 : bool) (s0 : Z) (m0 : list Z) (e0 : Z) (an1 : bool) (s1 : Z) (m1 : list Z) (e1 p q axis : Z),
  set_like so -> Forall (fun x => fresh x) s -> good_three (length s) s0 m0 e0 -> good_three (length s) s1 m1 e1 ->
  how3 so (length s) (an0, s0, m0, e0) (an1, s1, m1, e1) = Ok (Some (p, q, axis)) ->
  fixm cv p q axis s = (s, Err ZeroDivisionError) \/
  exists s', fixm cv p q axis s = (s', Ok tt) /\ restored s s' p q [three an0 s0 m0 e0; three an1 s1 m1 e1].
Proof.
  intros K cv so s an0 s0 m0 e0 an1 s1 m1 e1 p q axis SO F (N0 & _ & L0 & A0 & B0) (N1 & _ & L1 & A1 & B1) E.
  destruct (how3_sound so (length s) an0 s0 m0 e0 an1 s1 m1 e1 p q axis SO) as (_ & _ & CH & [T1 T2] & [C1 C2]); [|exact E|].
  { intros k [<-|[<-|[<-|[<-|[]]]]]; assumption. }
  apply fix_restores; [exact F|exact CH|]. intros t [<-|[<-|[]]]; right; right.
  - exists an0, s0, m0, e0. do 3 (split; [first [reflexivity|assumption]|]). split; [exact N0|]. split; [exact L0|]. tauto.
  - exists an1, s1, m1, e1. do 3 (split; [first [reflexivity|assumption]|]). split; [exact N1|]. split; [exact L1|]. tauto.
Qed.
Print Assumptions C68_restores.
Example C68_ex : how3 ns20 6 (true, 1, [2; 3], 4)%Z (true, 4, [2; 3], 5)%Z = Ok (Some (6, 5, 1)%Z) /\ snd (fixm Symmetric 6 5 1 m6) = Ok tt /\
  how3 ns20 6 (true, 1, [2; 3], 4)%Z (true, 5, [2; 3], 6)%Z = Ok (Some (1, 5, 2)%Z) /\ good_three 6 1 [2; 3]%Z 4 /\ good_three 6 5 [2; 3]%Z 6.
Proof.
  do 3 (split; [vm_compute; reflexivity|]). split; (split; [discriminate|]; split; [repeat constructor; cbn; lia|]; split; [intros k Hk; cbn in Hk; lia|lia]).
Qed.
(* with one free leg nothing is tried for brackets of different kinds: <1|(2)|3] and [4|(2)|5>
   at six legs, where |6] and |1] may be changed *)
Theorem C68_mixed_refuted :
  exists (n : nat) (s0 : Z) (m0 : list Z) (e0 s1 : Z) (m1 : list Z) (e1 p q axis : Z), good_three n s0 m0 e0 /\ good_three n s1 m1 e1 /\
  how3 ns20 n (true, s0, m0, e0) (false, s1, m1, e1) = Ok None /\ choice n p q axis /\
  (spared_three true s0 m0 e0 axis p /\ spared_three true s0 m0 e0 axis q) /\ (spared_three false s1 m1 e1 axis p /\ spared_three false s1 m1 e1 axis q).
Proof.
  exists 6%nat, 1%Z, [2]%Z, 3%Z, 4%Z, [2]%Z, 5%Z, 6%Z, 1%Z, 2%Z.
  do 2 (split; [split; [discriminate|]; split; [repeat constructor; cbn; lia|]; split; [intros k Hk; cbn in Hk; lia|lia]|]).
  split; [vm_compute; reflexivity|]. split; [unfold choice; lia|]. unfold spared_three, square_changed. cbn. repeat split; intros; try reflexivity; try lia.
Qed.
Print Assumptions C68_mixed_refuted.

(* ---- C69: <A|B+C|A] and <B|A+C|B] by a closed formula ---- *)
Theorem C69_formula :
  forall (K : Fld) (cv : convention) (so : list Z -> list Z) (xa xe : list K -> K -> K -> result K) (fuel : nat) (an0 an1 : bool) (A B C : Z) (m0 m1 : list Z)
    (X Y : K) (s : ps K) (p q : Z) (rest : list Z),
  set_like so -> Forall (fun x => fresh x) s -> legs_of s [A; B; C] -> A <> B -> A <> C -> B <> C ->
  Permutation m0 [B; C] -> Permutation m1 [A; C] -> free_legs (length s) [A; B; C] = p :: q :: rest ->
  (nz (c_A2 s B C) -> nz (c_S2 s A B) -> nz (c_S2 s A C) -> nz (c_S2 s p q) ->
   exists s', set_pair_all cv so xa xe (S fuel) (three an0 A m0 A) X (three an1 B m1 B) Y s = (s', Ok tt) /\
     made2 s s' (three an0 A m0 A) X (three an1 B m1 B) Y [A; p; q]) /\
  (c_A2 s B C = Ok 0 \/ c_S2 s A B = Ok 0 \/ c_S2 s A C = Ok 0 \/ c_S2 s p q = Ok 0 ->
   snd (set_pair_all cv so xa xe (S fuel) (three an0 A m0 A) X (three an1 B m1 B) Y s) = Err ZeroDivisionError).
Proof. intros. eapply pair_formula; eassumption. Qed.
Print Assumptions C69_formula.
Example C69_ex : legs_of m6 [1; 2; 3]%Z /\ free_legs (length m6) [1; 2; 3]%Z = [4; 5; 6]%Z /\ nz (c_A2 m6 2 3) /\ nz (c_S2 m6 1 2) /\ nz (c_S2 m6 1 3) /\ nz (c_S2 m6 4 5) /\
  Permutation [3; 2]%Z [2; 3]%Z /\ snd (set2 (three true 1 [3; 2]%Z 1) 5 (three true 2 [1; 3]%Z 2) 7 m6) = Ok tt /\
  snd (set2 (three true 1 [2; 3]%Z 1) 5 (three false 2 [1; 3]%Z 2) 7 m6) = Ok tt.
Proof.
  split; [intros k Hk; cbn [In] in Hk; unfold inr; rng; lia|]. split; [vm_compute; reflexivity|]. do 4 (split; [nzt20|]). split; [apply perm_swap|].
  split; vm_compute; reflexivity.
Qed.
(* the formula is used for every two strings with the same three labels: <1|2+3|1] and
   <1|2+3|2] end with the wrong values *)
Theorem C69_labels_refuted :
  exists (s : ps GFM) (t1 t2 : target) (v1 v2 : Z), Forall (fun x => fresh x) s /\ total_mom s = mzero /\ (length s - 3 >= 2)%nat /\
  t1 = three true 1 [2; 3]%Z 1 /\ t2 = three true 1 [2; 3]%Z 2 /\ snd (set2 t1 v1 t2 v2 s) = Err MyException /\
  on_shell_point (fst (set2 t1 v1 t2 v2 s)) /\ ~ plus_minus (c_target (fst (set2 t1 v1 t2 v2 s)) t2) (gM v2).
Proof.
  exists m6, (three true 1 [2; 3]%Z 1), (three true 1 [2; 3]%Z 2), 5%Z, 7%Z. split; [apply spM_fresh|]. split; [exact m6_total|]. split; [cbn; lia|].
  do 2 (split; [reflexivity|]). split; [vm_compute; reflexivity|]. split; [apply on_shellb; vm_compute; reflexivity|apply pmb; vm_compute; reflexivity].
Qed.
Print Assumptions C69_labels_refuted.

(* ---- C70: rewriting a string keeps its value up to sign ---- *)
Theorem C70_chain :
  forall (K : Fld) (so : list Z -> list Z) (n : nat) (an : bool) (a b : Z) (o : obr) (sa : Z) (ms : list (list Z)) (e : Z) (c : cbr)
    (o' : obr) (sa' : Z) (ms' : list (list Z)) (e' : Z) (c' : cbr) (mode : Z) (h : how),
  set_like so -> good_chain n o sa ms e c -> plan_two_NB so n an a b (o, sa, ms, e, c) = Ok (o', sa', ms', e', c', mode, h) ->
  good_chain n o' sa' ms' e' c' /\ same_value (K := K) n (chain_t o sa ms e c) (chain_t o' sa' ms' e' c').
Proof. intros K so n an a b o sa ms e c o' sa' ms' e' c' mode h SO G E. exact (plan_two_NB_same (K := K) so n an a b (o, sa, ms, e, c) (o', sa', ms', e', c') mode h SO G E). Qed.
Print Assumptions C70_chain.
(* a rewriting by momentum conservation, one that turns the string round and one that reorders a sum *)
Example C70_chain_ex :
  plan_two_NB ns20 6 true 1 2 (OAng, 3, [[4; 5]], 6, CSq)%Z = Ok (OSq, 6, [[2; 1]], 3, CAng, 1, Some (4, 5, 1))%Z /\
  plan_two_NB ns20 7 true 1 2 (OAng, 1, [[4; 3]; [4; 5]], 1, CAng)%Z = Ok (OAng, 1, [[3; 4]; [4; 5]], 1, CAng, 2, Some (6, 7, 1))%Z /\
  good_chain 6 OAng 3 [[4; 5]]%Z 6 CSq.
Proof.
  do 2 (split; [vm_compute; reflexivity|]). split; [discriminate|]. split; [reflexivity|]. split; [discriminate|]. split; [|lia].
  constructor; [|constructor]. split; [discriminate|]. split; [repeat constructor; cbn; lia|]. intros k Hk. cbn in Hk. lia.
Qed.
(* the strings of a plan *)
Definition planned (p : plan3) : br3 * br3 := match p with P3Formula x y | P3Set x y _ | P3Swap x y => (x, y) end.
Theorem C70_three :
  forall (K : Fld) (so : list Z -> list Z) (n : nat) (an0 : bool) (s0 : Z) (m0 : list Z) (e0 : Z) (an1 : bool) (s1 : Z) (m1 : list Z) (e1 : Z)
    (x y : br3) (an0' : bool) (s0' : Z) (m0' : list Z) (e0' : Z) (an1' : bool) (s1' : Z) (m1' : list Z) (e1' : Z),
  set_like so -> good_three n s0 m0 e0 -> good_three n s1 m1 e1 -> flips3 so n (an0, s0, m0, e0) (an1, s1, m1, e1) = Ok (x, y) ->
  planned (after3 x y) = ((an0', s0', m0', e0'), (an1', s1', m1', e1')) ->
  (good_three n s0' m0' e0' /\ same_value (K := K) n (three an0 s0 m0 e0) (three an0' s0' m0' e0')) /\
  (good_three n s1' m1' e1' /\ same_value (K := K) n (three an1 s1 m1 e1) (three an1' s1' m1' e1')).
Proof.
  intros K so n an0 s0 m0 e0 an1 s1 m1 e1 x y an0' s0' m0' e0' an1' s1' m1' e1' SO G0 G1 E P.
  destruct (flips3_same (K := K) so n (an0, s0, m0, e0) (an1, s1, m1, e1) x y SO G0 G1 E) as [[Gx Sx] [Gy Sy]].
  destruct (after3_same (K := K) n x y Gx Gy) as [[Gx' Sx'] [Gy' Sy']].
  change (plan_strings (after3 x y)) with (planned (after3 x y)) in *. rewrite P in Gx', Sx', Gy', Sy'. cbn [fst snd] in *.
  split; (split; [assumption|]); [exact (same_trans _ _ _ _ Sx Sx')|exact (same_trans _ _ _ _ Sy Sy')].
Qed.
Print Assumptions C70_three.
Example C70_three_ex :
  flips3 ns20 6 (true, 1, [2; 3], 4)%Z (true, 5, [2; 3], 6)%Z = Ok ((true, 1, [5; 6], 4), (true, 5, [1; 4], 6))%Z /\
  planned (after3 (true, 1, [2; 3], 4) (false, 5, [3; 6], 4))%Z = ((true, 1, [2; 3], 4), (true, 4, [6; 3], 5))%Z.
Proof. split; vm_compute; reflexivity. Qed.

(* ---- C71: <a|b> and a chain ---- *)
Theorem C71_head :
  forall (K : Fld) (cv : convention) (so : list Z -> list Z) (xa xe : list K -> K -> K -> result K) (fuel : nat) (an : bool) (a b : Z) (v1 : K)
    (o : obr) (sa : Z) (ms : list (list Z)) (e : Z) (c : cbr) (w2 : K) (s : ps K) (p q : Z) (rest : list Z) (o' : obr) (sa' : Z) (ms' : list (list Z)) (e' : Z) (c' : cbr),
  set_like so -> Forall (fun x => fresh x) s -> inr s a -> inr s b -> a <> b -> good_chain (length s) o sa ms e c ->
  free_legs (length s) ([a; b] ++ sa :: concat ms ++ [e]) = p :: q :: rest ->
  (o', sa', ms', e', c') = (if turns an a o sa e c then backwards (o, sa, ms, e, c) else (o, sa, ms, e, c)) ->
  ~ In sa' (concat ms) -> (sa' <> e' \/ Nat.odd (length ms) = true) -> (In sa' [a; b] -> length ms = 1%nat /\ angle_o o' <> an) ->
  let r := set_pair_all cv so xa xe (S fuel) (two an a b) v1 (chain_t o sa ms e c) w2 s in
  snd r = Err ZeroDivisionError \/
  exists s', r = (s', Ok tt) /\ made2_sign s s' (two an a b) v1 (chain_t o sa ms e c) w2 [b; sa'; p; q].
Proof. intros. eapply pair_two_chain_head; eassumption. Qed.
Print Assumptions C71_head.
Example C71_head_ex : (* <1|2> and <3|(4+5)|1], which is turned round; <1|2> and <3|(1+4)|(4+2)|5> *)
  free_legs (length m7) ([1; 2] ++ 3 :: concat [[4; 5]] ++ [1])%Z = [6; 7]%Z /\ turns true 1 OAng 3 1 CSq = true /\
  backwards (OAng, 3, [[4; 5]], 1, CSq)%Z = (OSq, 1, [[5; 4]], 3, CAng)%Z /\ snd (set2 (two true 1 2) 5 (chain_t OAng 3 [[4; 5]]%Z 1 CSq) 7 m7) = Ok tt /\
  free_legs (length m7) ([1; 2] ++ 3 :: concat [[1; 4]; [4; 2]] ++ [5])%Z = [6; 7]%Z /\ turns true 1 OAng 3 5 CAng = false /\
  snd (set2 (two true 1 2) 5 (chain_t OAng 3 [[1; 4]; [4; 2]]%Z 5 CAng) 7 m7) = Ok tt.
Proof. repeat (split; [vm_compute; reflexivity|]). vm_compute. reflexivity. Qed.
Theorem C71_middle :
  forall (K : Fld) (cv : convention) (so : list Z -> list Z) (xa xe : list K -> K -> K -> result K) (fuel : nat) (an : bool) (a b : Z) (v1 : K)
    (o : obr) (sa : Z) (ms : list (list Z)) (e : Z) (c : cbr) (w2 : K) (s : ps K) (p q : Z) (rest : list Z) (o' : obr) (sa' : Z) (m1 : list Z) (k : Z) (m2 : list Z) (ms'' : list (list Z)) (e' : Z) (c' : cbr),
  set_like so -> Forall (fun x => fresh x) s -> inr s a -> inr s b -> a <> b -> good_chain (length s) o sa ms e c ->
  free_legs (length s) ([a; b] ++ sa :: concat ms ++ [e]) = p :: q :: rest ->
  (o', sa', (m1 ++ k :: m2) :: ms'', e', c') = (if turns an a o sa e c then backwards (o, sa, ms, e, c) else (o, sa, ms, e, c)) ->
  In sa' [a; b] -> ms'' <> [] -> (forall x, In x m1 -> In x (concat ms'' ++ [a; b])) -> ~ In k (concat ms'' ++ [a; b]) -> k <> e' ->
  let r := set_pair_all cv so xa xe (S fuel) (two an a b) v1 (chain_t o sa ms e c) w2 s in
  snd r = Err ZeroDivisionError \/
  exists s', r = (s', Ok tt) /\ made2_sign s s' (two an a b) v1 (chain_t o sa ms e c) w2 [b; k; p; q].
Proof. intros. eapply pair_two_chain_middle; eassumption. Qed.
Print Assumptions C71_middle.
Example C71_middle_ex : (* <1|2> and <1|(4+3)|(4+5)|1>, which changes |3> or |3] *)
  free_legs (length m7) ([1; 2] ++ 1 :: concat [[4; 3]; [4; 5]] ++ [1])%Z = [6; 7]%Z /\ turns true 1 OAng 1 1 CAng = false /\
  snd (set2 (two true 1 2) 5 (chain_t OAng 1 [[4; 3]; [4; 5]]%Z 1 CAng) 7 m7) = Ok tt.
Proof. repeat (split; [vm_compute; reflexivity|]). vm_compute. reflexivity. Qed.
(* <1|2> and <3|(3+4)|(5+6)|1>: the end that is also in <1|2> is changed and <1|2> with it *)
Theorem C71_shared_end_refuted :
  exists (s : ps GFM) (v1 v2 : Z), Forall (fun x => fresh x) s /\ total_mom s = mzero /\
  let t1 := two true 1 2 in let t2 := chain_t OAng 3 [[3; 4]; [5; 6]]%Z 1 CAng in
  good_chain (length s) OAng 3 [[3; 4]; [5; 6]]%Z 1 CAng /\ snd (set2 t1 v1 t2 v2 s) = Err MyException /\ ~ plus_minus (c_target (fst (set2 t1 v1 t2 v2 s)) t1) (gM v1).
Proof.
  exists m7, 5%Z, 7%Z. split; [apply spM_fresh|]. split; [exact m7_total|]. cbv zeta. split.
  { gchain. }
  split; [vm_compute; reflexivity|apply pmb; vm_compute; reflexivity].
Qed.
Print Assumptions C71_shared_end_refuted.
(* <1|2> and <1|(2+3)|4] at four legs: the complement of the sum and the ends is empty *)
Theorem C71_empty_refuted :
  exists (s : ps GFM) (v1 v2 : Z), Forall (fun x => fresh x) s /\ total_mom s = mzero /\ good_chain (length s) OAng 1 [[2; 3]]%Z 4 CSq /\
  snd (set2 (two true 1 2) v1 (chain_t OAng 1 [[2; 3]]%Z 4 CSq) v2 s) = Err TypeError.
Proof.
  exists m4, 5%Z, 7%Z. split; [apply spM_fresh|]. split; [exact m4_total|]. split.
  { gchain. }
  vm_compute. reflexivity.
Qed.
Print Assumptions C71_empty_refuted.

(* ---- C72: two three-brackets ---- *)
Theorem C72_middle :
  forall (K : Fld) (cv : convention) (so : list Z -> list Z) (xa xe : list K -> K -> K -> result K) (fuel : nat) (an0 : bool) (s0 : Z) (m0 : list Z) (e0 : Z) (v1 : K)
    (an1 : bool) (s1 : Z) (m11 : list Z) (k : Z) (m12 : list Z) (e1 : Z) (w2 : K) (s : ps K) (p q : Z) (rest : list Z),
  set_like so -> Forall (fun x => fresh x) s -> good_three (length s) s0 m0 e0 -> good_three (length s) s1 (m11 ++ k :: m12) e1 ->
  free_legs (length s) ((s0 :: m0 ++ [e0]) ++ s1 :: (m11 ++ k :: m12) ++ [e1]) = p :: q :: rest ->
  ~ (forall x, In x (s0 :: m0 ++ [e0]) <-> In x (s1 :: (m11 ++ k :: m12) ++ [e1])) ->
  ~ In s0 m0 -> (forall x, In x m11 -> In x m0) -> ~ In k m0 -> ~ In k [s0; s1; e1] -> (length m0 <= length (m11 ++ k :: m12))%nat ->
  let x := three an0 s0 m0 e0 in let y := three an1 s1 (m11 ++ k :: m12) e1 in let r := set_pair_all cv so xa xe (S fuel) x v1 y w2 s in
  snd r = Err ZeroDivisionError \/ exists s', r = (s', Ok tt) /\ made2 s s' x v1 y w2 [s0; k; p; q].
Proof. intros. eapply pair_three_middle; eassumption. Qed.
Print Assumptions C72_middle.
Theorem C72_ends :
  forall (K : Fld) (cv : convention) (so : list Z -> list Z) (xa xe : list K -> K -> K -> result K) (fuel : nat) (an : bool) (s0 : Z) (m0 : list Z) (e0 : Z) (v1 : K)
    (s1 : Z) (m1 : list Z) (e1 : Z) (w2 : K) (s : ps K) (p q : Z) (rest : list Z),
  set_like so -> Forall (fun x => fresh x) s -> good_three (length s) s0 m0 e0 -> good_three (length s) s1 m1 e1 ->
  free_legs (length s) ((s0 :: m0 ++ [e0]) ++ s1 :: m1 ++ [e1]) = p :: q :: rest ->
  ~ (forall x, In x (s0 :: m0 ++ [e0]) <-> In x (s1 :: m1 ++ [e1])) -> Permutation m0 m1 -> s0 <> s1 -> ~ In s0 m0 -> ~ In s1 m0 ->
  let x := three an s0 m0 e0 in let y := three an s1 m1 e1 in let r := set_pair_all cv so xa xe (S fuel) x v1 y w2 s in
  snd r = Err ZeroDivisionError \/ exists s', r = (s', Ok tt) /\ made2 s s' x v1 y w2 [s0; s1; p; q].
Proof. intros. eapply pair_three_ends; eassumption. Qed.
Print Assumptions C72_ends.
Example C72_ex : (* <1|(2+3)|4] and <2|(3+5)|4]; <1|(2+3)|4] and <4|(2+3)|5] *)
  free_legs (length m7) ((1 :: [2; 3] ++ [4]) ++ 2 :: ([3] ++ 5 :: []) ++ [4])%Z = [6; 7]%Z /\ snd (set2 (three true 1 [2; 3]%Z 4) 5 (three true 2 [3; 5]%Z 4) 7 m7) = Ok tt /\
  free_legs (length m7) ((1 :: [2; 3] ++ [4]) ++ 4 :: [2; 3] ++ [5])%Z = [6; 7]%Z /\ snd (set2 (three true 1 [2; 3]%Z 4) 5 (three true 4 [2; 3]%Z 5) 7 m7) = Ok tt.
Proof. repeat (split; [vm_compute; reflexivity|]). vm_compute. reflexivity. Qed.
Ltac three_bad := split; [apply spM_fresh|]; split; [exact m7_total|]; split;
  [do 2 (split; [split; [discriminate|]; split; [repeat constructor; cbn; lia|]; rng; split; [intros k Hk; cbn in Hk; lia|lia]|]); vm_compute; reflexivity|].
(* two legs are free and yet the call fails for four different reasons *)
Definition spare_legs (s : ps GFM) (s0 : Z) (m0 : list Z) (e0 s1 : Z) (m1 : list Z) (e1 : Z) : Prop :=
  good_three (length s) s0 m0 e0 /\ good_three (length s) s1 m1 e1 /\ Nat.leb 2 (length (free_legs (length s) ((s0 :: m0 ++ [e0]) ++ s1 :: m1 ++ [e1]))) = true.
(* [1|(2+3)|4> and <4|(2+1)|5]: the entry 1 is to be set, but the sum is not reordered because
   the test for the other bracket names a closing one; |2> is changed instead *)
Theorem C72_reorder_refuted :
  exists (s : ps GFM) (v1 v2 : Z), Forall (fun x => fresh x) s /\ total_mom s = mzero /\ spare_legs s 1 [2; 3]%Z 4 4 [2; 1]%Z 5 /\
  let t1 := three false 1 [2; 3]%Z 4 in let t2 := three true 4 [2; 1]%Z 5 in
  snd (set2 t1 v1 t2 v2 s) = Err MyException /\ ~ plus_minus (c_target (fst (set2 t1 v1 t2 v2 s)) t1) (gM v1).
Proof. exists m7, 5%Z, 7%Z. three_bad. split; [vm_compute; reflexivity|apply pmb; vm_compute; reflexivity]. Qed.
Print Assumptions C72_reorder_refuted.
(* <1|(2+3)|4] and <2|(5)|4]: the shorter string is set first although the mode belongs to it *)
Theorem C72_shorter_refuted :
  exists (s : ps GFM) (v1 v2 : Z), Forall (fun x => fresh x) s /\ total_mom s = mzero /\ spare_legs s 1 [2; 3]%Z 4 2 [5]%Z 4 /\
  let t1 := three true 1 [2; 3]%Z 4 in let t2 := three true 2 [5]%Z 4 in
  snd (set2 t1 v1 t2 v2 s) = Err MyException /\ ~ plus_minus (c_target (fst (set2 t1 v1 t2 v2 s)) t2) (gM v2).
Proof. exists m7, 5%Z, 7%Z. three_bad. split; [vm_compute; reflexivity|apply pmb; vm_compute; reflexivity]. Qed.
Print Assumptions C72_shorter_refuted.
(* <1|(2+3)|4] and [4|(2+3)|5>: the first one is turned round, and then both start with |4] *)
Theorem C72_turned_refuted :
  exists (s : ps GFM) (v1 v2 : Z), Forall (fun x => fresh x) s /\ total_mom s = mzero /\ spare_legs s 1 [2; 3]%Z 4 4 [2; 3]%Z 5 /\
  let t1 := three true 1 [2; 3]%Z 4 in let t2 := three false 4 [2; 3]%Z 5 in
  snd (set2 t1 v1 t2 v2 s) = Err MyException /\ ~ plus_minus (c_target (fst (set2 t1 v1 t2 v2 s)) t1) (gM v1).
Proof. exists m7, 5%Z, 7%Z. three_bad. split; [vm_compute; reflexivity|apply pmb; vm_compute; reflexivity]. Qed.
Print Assumptions C72_turned_refuted.
(* <1|(2+3)|4] and [1|(2+3)|4>: the mode is never assigned; the first one has been set by then *)
Theorem C72_unassigned_refuted :
  exists (s : ps GFM) (v1 v2 : Z), Forall (fun x => fresh x) s /\ total_mom s = mzero /\ spare_legs s 1 [2; 3]%Z 4 1 [2; 3]%Z 4 /\
  let t1 := three true 1 [2; 3]%Z 4 in let t2 := three false 1 [2; 3]%Z 4 in
  snd (set2 t1 v1 t2 v2 s) = Err OtherException /\ total_mom (fst (set2 t1 v1 t2 v2 s)) <> mzero.
Proof. exists m7, 5%Z, 7%Z. three_bad. split; [vm_compute; reflexivity|]. intros H. apply meqb_ok in H. revert H. vm_compute. discriminate. Qed.
Print Assumptions C72_unassigned_refuted.
