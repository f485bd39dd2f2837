(* The names of masses, and that the sets of names never hold a name twice. *)
From Coq Require Import List ZArith Bool Lia.
From Verif Require Import Base Fld Str Masses MassesSpec MassesThm MassNameSpec.
Import ListNotations.
Open Scope Z_scope.

Lemma letter_latin c : Masses.is_letter c = true <-> latin c.
Proof. unfold Masses.is_letter, latin. rewrite orb_true_iff, !andb_true_iff, !Z.leb_le. tauto. Qed.
Lemma digit_decimal c : is_digit c = true <-> decimal_digit c.
Proof. unfold is_digit, decimal_digit. rewrite andb_true_iff, !Z.leb_le. tauto. Qed.
Lemma digits_decimal t : forallb is_digit t = true <-> Forall decimal_digit t.
Proof. rewrite forallb_forall, Forall_forall. split; intros H c I; apply digit_decimal, H, I. Qed.
Lemma split_text t : letters_digits t = true <-> exists a b, t = a ++ b /\ Forall latin a /\ Forall decimal_digit b.
Proof.
  induction t as [|c t IH].
  - cbn. split; [|reflexivity]. intros _. exists [], []. auto.
  - cbn [letters_digits]. destruct (Masses.is_letter c) eqn:L.
    + rewrite IH. apply letter_latin in L. split.
      * intros (a & b & -> & A & B). exists (c :: a), b. auto.
      * intros ([|d a] & b & E & A & B).
        -- cbn in E. subst b. inversion B as [|? ? D _]; subst. unfold latin, decimal_digit in *. lia.
        -- cbn in E. injection E as <- ->. inversion A; subst. exists a, b. auto.
    + rewrite digits_decimal. split.
      * intros F. exists [], (c :: t). auto.
      * intros ([|d a] & b & E & A & B); [cbn in E; subst b; exact B|].
        cbn in E. injection E as <- ->. inversion A as [|? ? D _]; subst. apply letter_latin in D. congruence.
Qed.
Lemma opt_cases t : (exists t', t = 95 :: t' /\ opt_underscore t = t') \/ (opt_underscore t = t /\ forall t', t <> 95 :: t').
Proof.
  destruct t as [|c t]; [right; split; [reflexivity|discriminate]|].
  destruct (Z.eq_dec c 95) as [->|N]; [left; exists t; auto|]. right. split; [|intros t' E; injection E as E _; contradiction].
  unfold opt_underscore. destruct c as [|p|p]; try reflexivity.
  do 8 (try (destruct p as [p|p|]; try reflexivity)). all: exfalso; apply N; reflexivity.
Qed.
Theorem mass_names t : is_mass t = true <-> mass_text t.
Proof.
  unfold is_mass, mass_text. destruct t as [|c t]; [split; [discriminate|intros (c & u & l & n & E & _); discriminate]|].
  rewrite andb_true_iff, !orb_true_iff, !Z.eqb_eq, split_text. split.
  - intros [M (a & b & E & A & B)]. destruct (opt_cases t) as [(t' & -> & O)|[O _]]; rewrite O in E; subst.
    + exists c, true, a, b. unfold mass_letter. cbn [app]. tauto.
    + exists c, false, a, b. unfold mass_letter. cbn [app]. tauto.
  - intros (c' & u & a & b & E & M & A & B). injection E as <- ->. split; [unfold mass_letter in M; tauto|]. exists a, b. split; [|auto].
    destruct u; [reflexivity|]. cbn [app]. destruct (opt_cases (a ++ b)) as [(t' & E & _)|[O _]]; [|exact O]. exfalso.
    destruct a as [|x a]; cbn in E.
    + subst b. inversion B as [|? ? D _]; subst. unfold decimal_digit in D. lia.
    + injection E as -> _. inversion A as [|? ? D _]; subst. unfold latin in D. lia.
Qed.

Lemma set_add_once n ns : NoDup ns -> NoDup (set_add n ns).
Proof.
  intros N. unfold set_add. destruct (existsb (str_eqb n) ns) eqn:E; [exact N|].
  assert (H : ~ In n ns).
  { intros I. assert (T : existsb (str_eqb n) ns = true) by (apply existsb_exists; exists n; split; [exact I|destruct (str_eqb_spec n n); [reflexivity|contradiction]]). congruence. }
  clear E. induction N as [|x l X N IH]; cbn; [constructor; [intros []|constructor]|].
  constructor; [|apply IH; intros I; apply H; right; exact I]. intros I. apply in_app_or in I. destruct I as [I|[->|[]]]; [contradiction|]. apply H. left. reflexivity.
Qed.
Lemma upd_all {A} (P : A -> Prop) f : (forall x, P x -> P (f x)) -> forall l i, Forall P l -> Forall P (upd f l i).
Proof. intros F l. induction l as [|x l IH]; intros [|i] H; cbn [upd]; inversion H; subst; constructor; auto. Qed.
Lemma adds_once ns : forall acc, NoDup acc -> NoDup (fold_left (fun a n => set_add n a) ns acc).
Proof. induction ns as [|n ns IH]; intros acc H; cbn [fold_left]; [exact H|]. apply IH, set_add_once, H. Qed.
Section Sets.
Context {K : Fld}.
Lemma setattr_once S c (A : dict (mval K)) n v : Forall (@NoDup pystr) S -> Forall (@NoDup pystr) (fst (setattr S c A n v)).
Proof.
  intros H. unfold setattr. destruct (is_mass n); [|exact H]. destruct c as [l|ns|ns]; cbn [fst]; [|exact H|exact H].
  apply upd_all; [|exact H]. intros x. apply set_add_once.
Qed.
Lemma setattrs_once c : forall l S (A : dict (mval K)), Forall (@NoDup pystr) S -> Forall (@NoDup pystr) (fst (setattrs S c A l)).
Proof.
  induction l as [|[n v] l IH]; intros S A H; cbn [setattrs]; [exact H|]. pose proof (setattr_once S c A n v H) as G.
  destruct (setattr S c A n v) as [S' [A'|e]]; [apply IH, G|exact G].
Qed.
Lemma one_more S : Forall (@NoDup pystr) S -> Forall (@NoDup pystr) (S ++ [[]])%list.
Proof. intros H. apply Forall_app. split; [exact H|]. repeat constructor. Qed.
Lemma construct_once a rnd (w : world K) : Forall (@NoDup pystr) (sets w) -> Forall (@NoDup pystr) (sets (fst (construct a rnd w))).
Proof.
  intros H. unfold construct. destruct a as [|d|c].
  - pose proof (setattrs_once (CSet (length (sets w))) [] (sets w ++ [[]])%list [] (one_more _ H)) as G. exact G.
  - pose proof (setattrs_once (CSet (length (sets w))) d (sets w ++ [[]])%list [] (one_more _ H)) as G. destruct (setattrs _ _ _ d) as [S' [A'|e]]; exact G.
  - pose proof (setattrs_once c (map (fun n => (n, MNum (rnd n))) (elements (sets w) c)) (sets w) [] H) as G. destruct (setattrs _ _ _ _) as [S' [A'|e]]; exact G.
Qed.
Theorem sets_once (l : list (op K)) : Forall (@NoDup pystr) (sets (run l world0)).
Proof.
  unfold run. assert (G : forall w, Forall (@NoDup pystr) (sets w) -> Forall (@NoDup pystr) (sets (fold_left (fun w o => run_op o w) l w))); [|apply G; constructor].
  induction l as [|o l IH]; intros w H; cbn [fold_left]; [exact H|]. apply IH. destruct o as [ns|a rnd|i n v]; cbn [run_op].
  - cbn [sets]. apply Forall_app. split; [exact H|]. constructor; [|constructor]. apply adds_once. constructor.
  - apply construct_once, H.
  - unfold assign. destruct (nth_error (objs w) i) as [o|]; [|exact H]. pose proof (setattr_once (sets w) (masses o) (attrs o) n v H) as G.
    destruct (setattr (sets w) (masses o) (attrs o) n v) as [S' [A'|e]]; exact G.
Qed.
(* a set given by the user holds exactly the given names *)
Theorem set_given (l : list (op K)) ns x : In x (last (sets (run (l ++ [OSet ns]) world0)) []) <-> In x ns.
Proof.
  unfold run. rewrite fold_left_app. cbn [fold_left run_op sets]. rewrite last_last.
  assert (G : forall acc, In x (fold_left (fun a n => set_add n a) ns acc) <-> In x ns \/ In x acc).
  { induction ns as [|n ns IH]; intros acc; cbn [fold_left]; [cbn; tauto|]. rewrite IH, set_add_In. cbn. intuition congruence. }
  rewrite G. cbn. tauto.
Qed.
End Sets.
