(* Proofs about Variety.v. *)
From Coq Require Import List ZArith Bool Lia.
From Verif Require Import Base Fld Particle ParticleSpec ParticleThm Index IndexThm Phase PhaseSpec PhaseThm
  Arcs ArcsThm Compute ComputeThm Cluster Tr5 SetOne SetSpec SetThm SetThm2 SetPair SetPairSpec SetPairThm Variety.
Import ListNotations.

Section Len.
Context {K : Fld}.
Open Scope fld_scope.
Lemma kl_ret {A} (a : A) : keeps_length (K := K) (ret a). Proof. intros s. reflexivity. Qed.
Lemma kl_raise {A} e : keeps_length (K := K) (A := A) (raise e). Proof. intros s. reflexivity. Qed.
Lemma kl_get : keeps_length (K := K) get. Proof. intros s. reflexivity. Qed.
Lemma kl_lift {A} (r : result A) : keeps_length (K := K) (lift r). Proof. intros s. reflexivity. Qed.
Lemma kl_bind {A B} (m : QM (K := K) A) (f : A -> QM B) : keeps_length m -> (forall a, keeps_length (f a)) -> keeps_length (bind m f).
Proof.
  intros Hm Hf s. unfold bind. specialize (Hm s). destruct (m s) as [s' [a|e]]; cbn [fst] in *; [rewrite Hf; exact Hm|exact Hm].
Qed.
Lemma kl_at i : keeps_length (K := K) (at_ i). Proof. intros s. reflexivity. Qed.
Lemma kl_needo {A} (o : option A) : keeps_length (K := K) (needo o). Proof. destruct o; intros s; reflexivity. Qed.
Lemma kl_on i m : keeps_length (K := K) (on i m).
Proof.
  intros s. unfold on. destruct (getitem s i) as [p|e] eqn:G; [|reflexivity]. destruct (m p) as [p' r].
  destruct (setitem_laws s i p' p G) as (s' & -> & _ & L & _). exact L.
Qed.
Lemma kl_bound {A} (o : option A) : keeps_length (K := K) (bound o). Proof. destruct o; intros s; reflexivity. Qed.
Lemma kl_pyget {A} (l : list A) i : keeps_length (K := K) (pyget l i). Proof. unfold pyget. destruct (nth_error l i); intros s; reflexivity. Qed.
Lemma kl_sqrt (x : K) : keeps_length (sqrtQ x). Proof. unfold sqrtQ. destruct (fsqrt x); intros s; reflexivity. Qed.
End Len.
Create HintDb kl.
Global Hint Resolve kl_ret kl_raise kl_get kl_lift kl_at kl_needo kl_on kl_bound kl_pyget kl_sqrt : kl.
Ltac kl := repeat first
  [ progress intros
  | solve [auto 1 with kl | apply kl_get]
  | match goal with
    | |- keeps_length (bind _ _) => apply kl_bind
    | |- keeps_length (let '(_, _) := ?x in _) => destruct x
    | |- keeps_length (if ?b then _ else _) => destruct b
    | |- keeps_length (match ?x with _ => _ end) => destruct x
    end ].

Section Keep.
Context {K : Fld} (cv : convention) (so : list Z -> list Z).
Open Scope fld_scope.
Lemma kl_fixm A B ax : keeps_length (K := K) (fixm cv A B ax).
Proof. unfold fixm, fix_mom_cons. destruct (_ && _)%bool; [apply kl_raise|]. cbv zeta. destruct (_ && _)%bool; [|apply kl_ret]. unfold fix_mom_cons_complex. kl. Qed.
Lemma kl_fix2 l ax : keeps_length (K := K) (fix2 cv l ax).
Proof. unfold fix2. destruct l as [|p [|q l]]; try apply kl_raise. apply kl_fixm. Qed.
Local Hint Resolve kl_fixm kl_fix2 : kl.
Lemma kl_A2 A B (X : K) fx : keeps_length (set_A2 cv so A B X fx). Proof. unfold set_A2. kl. Qed.
Lemma kl_S2 A B (X : K) fx : keeps_length (set_S2 cv so A B X fx). Proof. unfold set_S2. kl. Qed.
Lemma kl_ends o a ms d c (X : K) : keeps_length (solve_ends o a ms d c X). Proof. unfold solve_ends. kl. Qed.
Local Hint Resolve kl_A2 kl_S2 kl_ends : kl.
Lemma kl_middle o o1 a b m ms d c (X : K) : keeps_length (solve_middle cv so o o1 a b m ms d c X). Proof. unfold solve_middle. kl. Qed.
Lemma kl_fixNB o a1 a ms d fx : keeps_length (K := K) (fix_NB cv so o a1 a ms d fx). Proof. unfold fix_NB. kl. Qed.
Local Hint Resolve kl_middle kl_fixNB : kl.
Lemma kl_NB n : forall o a ms d c (X : K) fx mode, keeps_length (set_NB cv so n o a ms d c X fx mode).
Proof. induction n as [|n IH]; intros; cbn [set_NB]; [apply kl_raise|]. kl; try apply IH. Qed.
Local Hint Resolve kl_NB : kl.
Lemma kl_S l (X : K) fx mode : keeps_length (set_Sijk cv so l X fx mode). Proof. unfold set_Sijk. kl. Qed.
Lemma kl_D cs (X : K) fx mode : keeps_length (set_Delta cv cs X fx mode).
Proof. unfold set_Delta. kl. Qed.
Lemma kl_D3 cs (X : K) fx mode : keeps_length (set_Dijk cv cs X fx mode).
Proof. unfold set_Dijk. kl. apply kl_D. Qed.
Lemma kl_sp k : keeps_length (K := K) (spinors k). Proof. unfold spinors. kl. Qed.
Local Hint Resolve kl_sp : kl.
Lemma kl_arc ijk f : (forall a b c d e f' g h i j k l m n o p, keeps_length (K := K) (f a b c d e f' g h i j k l m n o p)) -> keeps_length (set_arc cv ijk f).
Proof. intros H. unfold set_arc. kl. Qed.
Lemma kl_O l (X : K) : keeps_length (set_Oijk cv l X). Proof. unfold set_Oijk. apply kl_arc. intros. kl. Qed.
Lemma kl_P l (X : K) : keeps_length (set_Pijk cv l X). Proof. unfold set_Pijk. apply kl_arc. intros. kl. Qed.
Lemma kl_five (X : K) : keeps_length (set_tr5_five X). Proof. unfold set_tr5_five. kl. Qed.
Local Hint Resolve kl_five : kl.
Lemma kl_tr5 a b c d (X : K) fx : keeps_length (set_tr5 cv so a b c d X fx). Proof. unfold set_tr5. kl. Qed.
Lemma kl_5B a b c d e f (X : K) fx : keeps_length (set_5Bdiff cv a b c d e f X fx). Proof. unfold set_5Bdiff. kl. Qed.
Local Hint Resolve kl_S kl_D kl_D3 kl_O kl_P kl_tr5 kl_5B : kl.
Lemma kl_set t (X : K) fx mode : keeps_length (set_ cv so t X fx mode).
Proof. unfold set_, set_checked. apply kl_bind; [unfold set_inner; kl|]. kl. Qed.
Lemma kl_only t (X : K) mode : keeps_length (set_only cv so t X mode). Proof. apply kl_set. Qed.
Local Hint Resolve kl_set kl_only : kl.
Lemma kl_after an a b pl : keeps_length (K := K) (fix_after cv an a b pl). Proof. unfold fix_after. kl. Qed.
Local Hint Resolve kl_after : kl.
Lemma kl_TT an1 a b (v1 : K) an2 c d v2 : keeps_length (pair_two_two cv so an1 a b v1 an2 c d v2).
Proof. unfold pair_two_two. cbv zeta. kl. Qed.
Lemma kl_TS rec an1 a b (v1 : K) l v2 : (forall t x t' x', keeps_length (rec t x t' x')) -> keeps_length (pair_two_S cv so rec an1 a b v1 l v2).
Proof. intros H. unfold pair_two_S. cbv zeta. kl. Qed.
Lemma kl_TD an1 a b (v1 : K) ad ls v2 : keeps_length (pair_two_D cv so an1 a b v1 ad ls v2).
Proof. unfold pair_two_D. cbv zeta. kl. Qed.
Lemma kl_SS rec l (v1 : K) l' v2 : (forall t x t' x', keeps_length (rec t x t' x')) -> keeps_length (pair_S_S cv so rec l v1 l' v2).
Proof. intros H. unfold pair_S_S. cbv zeta. kl. Qed.
Lemma kl_3S rec an a m d (v1 : K) l v2 : (forall t x t' x', keeps_length (rec t x t' x')) -> keeps_length (pair_3B_S cv so rec an a m d v1 l v2).
Proof. intros H. unfold pair_3B_S. cbv zeta. kl. Qed.
Lemma kl_dl t : keeps_length (K := K) (delta_lists t). Proof. unfold delta_lists. kl. Qed.
Local Hint Resolve kl_TT kl_TD kl_dl : kl.
Lemma kl_pair_inner other fuel : (forall t x t' x', keeps_length (K := K) (other t x t' x')) ->
  forall t1 v1 t2 v2, keeps_length (set_pair_inner cv so other fuel t1 v1 t2 v2).
Proof.
  intros H. induction fuel as [|n IH]; intros; cbn [set_pair_inner]; [apply kl_raise|]. cbv zeta.
  destruct (kind_of t1), (kind_of t2); try apply kl_ret; try apply H; try apply IH.
  - kl.
  - kl; apply kl_TS; apply IH.
  - kl.
  - destruct t1 as [e|]; [|apply kl_raise]. destruct e; try apply kl_raise. destruct es as [|e' [|? ?]]; try apply kl_raise.
    destruct t2 as [e2|]; [|apply kl_raise]. destruct e2; try apply kl_raise. apply kl_bind; [apply kl_lift|]. intros. apply kl_3S. apply IH.
  - kl; apply kl_SS; apply IH.
Qed.
Lemma kl_set_pair other fuel t1 (v1 : K) t2 v2 : (forall t x t' x', keeps_length (K := K) (other t x t' x')) ->
  keeps_length (set_pair cv so other fuel t1 v1 t2 v2).
Proof.
  intros H. unfold set_pair, pair_checked. apply kl_bind; [apply kl_pair_inner, H|]. kl.
Qed.
Lemma kl_hard one pair ts (vs : list K) : (forall t x, keeps_length (K := K) (one t x)) -> (forall t x t' x', keeps_length (K := K) (pair t x t' x')) ->
  keeps_length (hardcoded one pair ts vs).
Proof. intros H1 H2. unfold hardcoded. kl. Qed.
End Keep.

Section Variety.
Context {K : Fld}.
Open Scope fld_scope.
Lemma put_back_all (backup : ps K) : forall done rest, length rest = length backup ->
  put_back (1 + Z.of_nat (length done)) backup (done ++ rest) = (done ++ backup, Ok tt).
Proof.
  induction backup as [|p t IH]; intros done rest L; destruct rest as [|x rest]; try discriminate; cbn [put_back]; [reflexivity|].
  rewrite bind_get. destruct (index_in (A := particle K) done x rest (1 + Z.of_nat (length done))%Z p) as (_ & E & _); [unfold zlen; lia|].
  rewrite (bind_lift _ _ _ _ E). unfold bind, modify. cbn [length] in L. specialize (IH (done ++ [p]) rest ltac:(lia)).
  rewrite app_length in IH. cbn [length] in IH. rewrite <- !app_assoc in IH. cbn [app] in IH.
  replace (1 + Z.of_nat (length done) + 1)%Z with (1 + Z.of_nat (length done + 1))%Z by lia. exact IH.
Qed.
Lemma put_back_from (backup s : ps K) : length s = length backup -> put_back 1 backup s = (backup, Ok tt).
Proof. intros L. exact (put_back_all backup [] s L). Qed.

Lemma up_to_sign_iff (x v : K) : up_to_sign x v = true <-> x = v \/ x = - v.
Proof. unfold up_to_sign. rewrite orb_true_iff, !feqb_ok. tauto. Qed.
Lemma values_iff char0 value (s : ps K) ts : forall vs xs, length ts = length vs -> rmapM (value s) ts = Ok xs ->
  (values_ok char0 xs vs = true <-> good_values char0 value s ts vs).
Proof.
  unfold values_ok, good_values. destruct char0.
  - induction ts as [|t ts IH]; intros [|v vs] xs L E; try discriminate; cbn in E.
    + inversion E. cbn. split; auto.
    + unfold rbind in E. destruct (value s t) as [x|] eqn:EX; [|discriminate]. destruct (rmapM (value s) ts) as [xs'|]; [|discriminate].
      inversion E; subst xs; clear E. cbn [combine forallb fst snd]. rewrite andb_true_iff, up_to_sign_iff, (IH vs xs') by (cbn in L; auto; lia).
      split.
      * intros [H1 H2]. constructor; [|exact H2]. unfold plus_minus. rewrite EX. destruct H1 as [->| ->]; auto.
      * intros H. inversion H as [|? ? ? ? P Q]; subst. split; [|exact Q]. unfold plus_minus in P. rewrite EX in P. destruct P as [P|P]; inversion P; auto.
  - intros vs xs _. revert xs. induction ts as [|t ts IH]; intros xs E; cbn in E.
    + inversion E. cbn. split; auto.
    + unfold rbind in E. destruct (value s t) as [x|] eqn:EX; [|discriminate]. destruct (rmapM (value s) ts) as [xs'|]; [|discriminate].
      inversion E; subst xs; clear E. cbn [forallb]. rewrite andb_true_iff, feqb_ok, (IH xs') by auto. split.
      * intros [-> H2]. constructor; auto.
      * intros H. inversion H as [|? ? P Q]; subst. split; [congruence|exact Q].
Qed.
Lemma values_err char0 value (s : ps K) ts vs e : length ts = length vs -> rmapM (value s) ts = Err e -> ~ good_values char0 value s ts vs.
Proof.
  unfold good_values. revert vs. induction ts as [|t ts IH]; intros [|v vs] L E; try discriminate; cbn in E.
  unfold rbind in E. destruct (value s t) as [x|e'] eqn:EX.
  - destruct (rmapM (value s) ts) as [xs'|e''] eqn:ES; [discriminate|]. specialize (IH vs ltac:(cbn in L; lia) E).
    destruct char0; intros H; inversion H; subst; auto.
  - destruct char0; intros H; [inversion H as [|? ? ? ? P Q]; destruct P; congruence|inversion H as [|? ? P Q]; congruence].
Qed.
Definition finish (char0 : bool) (value : ps K -> target -> result K) (ts : list target) (vs : list K) : QM (K := K) unit :=
  bind get (fun s => if negb (mom_cons_check s) then raise MyException
  else if negb (onshell_check s) then raise MyException
  else bind (lift (rmapM (value s) ts)) (fun xs => if values_ok char0 xs vs then ret tt else raise MyException)).
Lemma onshell_iff (s : ps K) : (mom_cons_check s = true /\ onshell_check s = true) <-> on_shell_point s.
Proof.
  split; [intros [A B]; apply checks_inv; assumption|]. intros [A B]. unfold mom_cons_check, onshell_check. split; [apply meqb_ok, A|].
  apply forallb_forall. rewrite Forall_forall in B. intros x Hx. apply feqb_ok, B, Hx.
Qed.
Lemma finish_state char0 value ts vs (s : ps K) : fst (finish char0 value ts vs s) = s.
Proof.
  unfold finish. rewrite bind_get. destruct (negb _); [reflexivity|]. destruct (negb _); [reflexivity|].
  unfold bind, lift. destruct (rmapM _ ts); [|reflexivity]. destruct (values_ok _ _ _); reflexivity.
Qed.
Lemma finish_iff char0 value ts vs (s : ps K) : length ts = length vs ->
  (finish char0 value ts vs s = (s, Ok tt) <-> on_shell_point s /\ good_values char0 value s ts vs).
Proof.
  intros L. rewrite <- onshell_iff. unfold finish. rewrite bind_get.
  destruct (mom_cons_check s), (onshell_check s); cbn [negb]; try (split; [intros H; discriminate|intros [[A B] _]; discriminate]).
  unfold bind, lift. destruct (rmapM (value s) ts) as [xs|e] eqn:E.
  - rewrite <- (values_iff char0 value s ts vs xs L E). destruct (values_ok char0 xs vs); split; try tauto; try discriminate. intros [_ H]. discriminate.
  - split; [discriminate|]. intros [_ H]. exfalso. revert H. apply (values_err char0 value s ts vs e L E).
Qed.
Lemma variety_shape hard singular value char0 try_s ts vs (s : ps K) : length ts = length vs ->
  variety hard singular value char0 try_s ts vs s =
  bind (try_except (hard ts vs) caught_all (if try_s then bind (put_back 1 s) (fun _ => singular ts vs) else ret tt)) (fun _ => finish char0 value ts vs) s.
Proof. intros L. unfold variety. rewrite L, Nat.eqb_refl. cbn [negb]. rewrite bind_get. reflexivity. Qed.

(* C40 *)
Theorem variety_returns hard singular value char0 try_s ts vs (s s' : ps K) :
  variety hard singular value char0 try_s ts vs s = (s', Ok tt) ->
  length ts = length vs /\ on_shell_point s' /\ good_values char0 value s' ts vs.
Proof.
  intros H. assert (L : length ts = length vs).
  { unfold variety in H. destruct (Nat.eqb_spec (length ts) (length vs)); [assumption|discriminate]. }
  split; [exact L|]. rewrite variety_shape in H by exact L. apply bind_inv in H as (s1 & [] & _ & H).
  assert (s1 = s') by (pose proof (finish_state char0 value ts vs s1) as F; rewrite H in F; exact (eq_sym F)). subst s1.
  apply finish_iff in H; [|exact L]. exact H.
Qed.
(* the hard-coded setter worked *)
Theorem variety_hard hard singular value char0 try_s ts vs (s s1 : ps K) : length ts = length vs -> hard ts vs s = (s1, Ok tt) ->
  fst (variety hard singular value char0 try_s ts vs s) = s1 /\
  (variety hard singular value char0 try_s ts vs s = (s1, Ok tt) <-> on_shell_point s1 /\ good_values char0 value s1 ts vs).
Proof.
  intros L E. rewrite variety_shape by exact L. rewrite (bind_ok _ _ _ s1 tt) by (unfold try_except; rewrite E; reflexivity).
  split; [apply finish_state|apply finish_iff, L].
Qed.
(* C41 *)
Theorem variety_fallback hard singular value char0 ts vs (s s1 : ps K) e : length ts = length vs ->
  hard ts vs s = (s1, Err e) -> e <> Diverges -> length s1 = length s ->
  (forall s2 e2, singular ts vs s = (s2, Err e2) -> variety hard singular value char0 true ts vs s = (s2, Err e2)) /\
  (forall s2, singular ts vs s = (s2, Ok tt) ->
     fst (variety hard singular value char0 true ts vs s) = s2 /\
     (variety hard singular value char0 true ts vs s = (s2, Ok tt) <-> on_shell_point s2 /\ good_values char0 value s2 ts vs)).
Proof.
  intros L E ND LL. rewrite variety_shape by exact L.
  assert (T : try_except (hard ts vs) caught_all (bind (put_back 1 s) (fun _ => singular ts vs)) s = singular ts vs s).
  { unfold try_except. rewrite E. replace (caught_all e) with true by (destruct e; reflexivity || contradiction).
    rewrite (bind_ok _ _ _ _ _ (put_back_from s s1 LL)). reflexivity. }
  split.
  - intros s2 e2 S2. apply bind_err. rewrite T. exact S2.
  - intros s2 S2. rewrite (bind_ok _ _ _ s2 tt) by (rewrite T; exact S2). split; [apply finish_state|apply finish_iff, L].
Qed.
(* without the fallback a failed setter is ignored *)
Theorem variety_swallow hard singular value char0 ts vs (s s1 : ps K) e : length ts = length vs ->
  hard ts vs s = (s1, Err e) -> e <> Diverges ->
  fst (variety hard singular value char0 false ts vs s) = s1 /\
  (variety hard singular value char0 false ts vs s = (s1, Ok tt) <-> on_shell_point s1 /\ good_values char0 value s1 ts vs).
Proof.
  intros L E ND. rewrite variety_shape by exact L.
  assert (T : try_except (hard ts vs) caught_all (ret tt) s = (s1, Ok tt)).
  { unfold try_except. rewrite E. replace (caught_all e) with true by (destruct e; reflexivity || contradiction). reflexivity. }
  rewrite (bind_ok _ _ _ _ _ T). split; [apply finish_state|apply finish_iff, L].
Qed.
End Variety.
