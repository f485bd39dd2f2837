(* The text for Mathematica. *)
From Coq Require Import Ascii String.
From Coq Require Import List ZArith Bool Lia.
From Verif Require Import Base Str ParseChars Mathematica MathematicaSpec.
Import ListNotations.
Open Scope Z_scope.

Lemma rep_miss c o new d t : c <> d -> replaced (c :: o) new 0 (d :: t) = d :: replaced (c :: o) new 0 t.
Proof. intros N. cbn [replaced begins]. rewrite (proj2 (Z.eqb_neq c d) N). reflexivity. Qed.
Lemma rep_free c o new u : ~ In c u -> forall t, replaced (c :: o) new 0 (u ++ t) = u ++ replaced (c :: o) new 0 t.
Proof.
  induction u as [|d u IH]; intros N t; [reflexivity|]. cbn [app]. rewrite rep_miss by (intros ->; apply N; left; reflexivity). f_equal. apply IH. intros I. apply N. right. exact I.
Qed.
Lemma rep_two c e o new u t : u <> [] -> ~ In e u -> ~ In c u -> replaced (c :: e :: o) new 0 (c :: u ++ t) = c :: u ++ replaced (c :: e :: o) new 0 t.
Proof.
  destruct u as [|d u]; [congruence|]. intros _ E C. cbn [replaced app begins]. rewrite (proj2 (Z.eqb_neq e d)) by (intros ->; apply E; left; reflexivity). rewrite andb_false_r. cbn [andb]. f_equal.
  exact (rep_free c (e :: o) new (d :: u) C t).
Qed.
(* no + is followed by - *)
Fixpoint apart (u : pystr) : bool :=
  match u with
  | [] => true
  | c :: v => (negb (c =? 43) || match v with d :: _ => negb (d =? 45) | [] => false end) && apart v
  end.
Lemma rep_apart new u : apart u = true -> forall t, replaced [43; 45] new 0 (u ++ t) = u ++ replaced [43; 45] new 0 t.
Proof.
  induction u as [|c u IH]; intros A t; [reflexivity|]. cbn [apart] in A. apply andb_true_iff in A. destruct A as [A B]. cbn [app]. cbn [replaced begins]. rewrite (Z.eqb_sym 43 c). destruct (c =? 43) eqn:C.
  - cbn [negb orb] in A. destruct u as [|d u]; [discriminate A|]. cbn [app begins]. rewrite (Z.eqb_sym 45 d). destruct (d =? 45); [discriminate A|]. cbn [andb]. f_equal. exact (IH B t).
  - cbn [andb]. f_equal. exact (IH B t).
Qed.
Lemma apart_app u v : apart u = true -> apart v = true -> apart (u ++ v) = true.
Proof.
  induction u as [|c u IH]; intros A B; [exact B|]. cbn [app apart] in *. apply andb_true_iff in A. destruct A as [A1 A2]. rewrite (IH A2 B), andb_true_r. destruct (c =? 43); [|reflexivity]. destruct u as [|d u]; [discriminate A1|exact A1].
Qed.
Lemma apart_free u : ~ In 43 u -> apart u = true.
Proof. induction u as [|c u IH]; intros N; [reflexivity|]. cbn [apart]. rewrite (proj2 (Z.eqb_neq c 43)) by (intros ->; apply N; left; reflexivity). apply IH. intros I. apply N. right. exact I. Qed.
Lemma apart_plus u : u <> [] -> ~ In 43 u -> ~ In 45 u -> apart (43 :: u) = true.
Proof. destruct u as [|d u]; [congruence|]. intros _ N M. change (negb (d =? 45) && apart (d :: u) = true). rewrite (proj2 (Z.eqb_neq d 45)) by (intros ->; apply M; left; reflexivity). apply (apart_free _ N). Qed.

Lemma digits_out c u : some_digits u -> (c < 48 \/ 57 < c) -> ~ In c u. Proof. intros [_ F] C I. rewrite Forall_forall in F. apply F in I. lia. Qed.
Lemma dec_digits i : 0 <= i -> some_digits (dec i).
Proof. intros H. split; [apply dec_nil, H|]. apply Forall_forall. intros c I. exact (dec_in i c H I). Qed.
(* the characters of a number *)
Lemma wolfram_in x c : decimal_ok x -> In c (wolfram x) -> 48 <= c <= 57 \/ In c [42; 94; 43; 45; 46].
Proof.
  intros (A & B & C) I. unfold wolfram, written in I. rewrite !in_app_iff in I. destruct I as [I|[I|[I|I]]].
  - destruct (d_neg x); [destruct I as [<-|[]]; cbn; lia|destruct I].
  - left. destruct A as [_ F]. rewrite Forall_forall in F. exact (F c I).
  - destruct (d_frac x) as [u|]; [|destruct I]. apply in_app_iff in I. destruct I as [[<-|[]]|I]; [cbn; lia|]. left. destruct B as [_ F]. rewrite Forall_forall in F. exact (F c I).
  - destruct (d_exp x) as [[n u]|]; [|destruct I]. rewrite !in_app_iff in I. destruct I as [[<-|[<-|[]]]|[I|I]]; [cbn; lia|cbn; lia|destruct n; destruct I as [<-|[]]; cbn; lia|]. left. destruct C as [_ F]. rewrite Forall_forall in F. exact (F c I).
Qed.
Lemma wolfram_out x c : decimal_ok x -> (c < 48 \/ 57 < c) -> ~ In c [42; 94; 43; 45; 46] -> ~ In c (wolfram x).
Proof. intros X C N I. apply (wolfram_in x c X) in I. destruct I as [I|I]; [lia|exact (N I)]. Qed.
Lemma wolfram_apart x : decimal_ok x -> apart (wolfram x) = true.
Proof.
  intros (A & B & C). unfold wolfram, written. repeat apply apart_app.
  - destruct (d_neg x); reflexivity.
  - apply apart_free, (digits_out 43 _ A). lia.
  - destruct (d_frac x) as [u|]; [|reflexivity]. apply (apart_app [46]); [reflexivity|]. apply apart_free, (digits_out 43 _ B). lia.
  - destruct (d_exp x) as [[n u]|]; [|reflexivity]. apply (apart_app [42; 94]); [reflexivity|]. destruct n; [apply (apart_app [45]); [reflexivity|]; apply apart_free, (digits_out 43 _ C); lia|].
    apply apart_plus; [apply C|apply (digits_out 43 _ C); lia|apply (digits_out 45 _ C); lia].
Qed.
Lemma sci x t : decimal_ok x -> replaced [101] [42; 94] 0 (python x ++ t) = wolfram x ++ replaced [101] [42; 94] 0 t.
Proof.
  intros (A & B & C). unfold python, wolfram, written. rewrite <- !app_assoc. rewrite rep_free by (destruct (d_neg x); cbn; lia). f_equal. rewrite rep_free by (apply (digits_out _ _ A); lia). f_equal.
  assert (E : forall t, replaced [101] [42; 94] 0 (match d_frac x with Some u => lit "." ++ u | None => [] end ++ t) = match d_frac x with Some u => lit "." ++ u | None => [] end ++ replaced [101] [42; 94] 0 t).
  { intros r. destruct (d_frac x) as [u|]; [|reflexivity]. rewrite <- !app_assoc. rewrite rep_free by (cbn; lia). f_equal. apply rep_free, (digits_out _ _ B). lia. }
  rewrite E. f_equal. destruct (d_exp x) as [[n u]|]; [|reflexivity]. rewrite <- !app_assoc. change (replaced [101] [42; 94] 0 (lit "e" ++ (if n then lit "-" else lit "+") ++ u ++ t)) with (lit "*^" ++ replaced [101] [42; 94] 0 ((if n then lit "-" else lit "+") ++ u ++ t)). f_equal.
  rewrite rep_free by (destruct n; cbn; lia). f_equal. apply rep_free, (digits_out _ _ C). lia.
Qed.

(* ---- going through a text ---- *)
Lemma go_miss c o new d t t' : c <> d -> replaced (c :: o) new 0 t = t' -> replaced (c :: o) new 0 (d :: t) = d :: t'.
Proof. intros N <-. apply rep_miss, N. Qed.
Lemma go_free c o new u t t' : ~ In c u -> replaced (c :: o) new 0 t = t' -> replaced (c :: o) new 0 (u ++ t) = u ++ t'.
Proof. intros N <-. apply rep_free, N. Qed.
Lemma go_two c e o new u t t' : u <> [] -> ~ In e u -> ~ In c u -> replaced (c :: e :: o) new 0 t = t' -> replaced (c :: e :: o) new 0 (c :: u ++ t) = c :: u ++ t'.
Proof. intros A B C <-. apply rep_two; assumption. Qed.
Lemma go_apart new u t t' : apart u = true -> replaced [43; 45] new 0 t = t' -> replaced [43; 45] new 0 (u ++ t) = u ++ t'.
Proof. intros A <-. apply rep_apart, A. Qed.
Lemma go_not c e o new d t t' : e <> d -> replaced (c :: e :: o) new 0 (d :: t) = t' -> replaced (c :: e :: o) new 0 (c :: d :: t) = c :: t'.
Proof. intros N <-. cbn [replaced begins]. rewrite (proj2 (Z.eqb_neq e d) N), Z.eqb_refl. reflexivity. Qed.
Lemma go_hit1 c new t t' : replaced [c] new 0 t = t' -> replaced [c] new 0 (c :: t) = new ++ t'.
Proof. intros <-. cbn [replaced begins]. rewrite Z.eqb_refl. reflexivity. Qed.
Lemma go_hit2 c e new t t' : replaced [c; e] new 0 t = t' -> replaced [c; e] new 0 (c :: e :: t) = new ++ t'.
Proof. intros <-. cbn [replaced begins]. rewrite !Z.eqb_refl. reflexivity. Qed.
Lemma go_sci x t t' : decimal_ok x -> replaced [101] [42; 94] 0 t = t' -> replaced [101] [42; 94] 0 (python x ++ t) = wolfram x ++ t'.
Proof. intros X <-. apply sci, X. Qed.
Ltac lits := repeat match goal with |- context [lit ?s] => let v := eval vm_compute in (lit s) in change (lit s) with v end; repeat (cbn [app]; rewrite <- ?app_assoc).
Ltac out := first [apply wolfram_out; [assumption|lia|cbn; lia] | apply digits_out; [apply dec_digits; assumption|lia]].
Ltac go :=
  repeat lazymatch goal with
  | |- replaced _ _ 0 [] = _ => reflexivity
  | |- replaced (?c :: _ :: _) _ 0 [?c] = _ => reflexivity
  | |- replaced [101] [42; 94] 0 (python _ ++ _) = _ => apply go_sci; [assumption|]
  | |- replaced [43; 45] _ 0 (wolfram _ ++ _) = _ => apply go_apart; [apply wolfram_apart; assumption|]
  | |- replaced _ _ 0 (wolfram _ ++ _) = _ => apply go_free; [out|]
  | |- replaced _ _ 0 (dec _ ++ _) = _ => apply go_free; [out|]
  | |- replaced (?c :: ?e :: _) _ 0 (?c :: dec _ ++ _) = _ => apply go_two; [apply dec_digits; assumption|out|out|]
  | |- replaced [?c; ?e] _ 0 (?c :: ?e :: _) = _ => refine (go_hit2 _ _ _ _ _ _)
  | |- replaced [?c] _ 0 (?c :: _) = _ => refine (go_hit1 _ _ _ _ _)
  | |- replaced (?c :: ?e :: _) _ 0 (?c :: _ :: _) = _ => apply go_not; [discriminate|]
  | |- replaced _ _ 0 (_ :: _) = _ => apply go_miss; [discriminate|]
  end.
(* numbers in quotes *)
Definition quoted (q : pystr) (z : complex) : pystr := q ++ wolfram (fst z) ++ q ++ lit "+" ++ q ++ wolfram (snd z) ++ q ++ lit "I".
Definition half1 (z : complex) : pystr := lit "mpf('" ++ wolfram (fst z) ++ lit "')+mpf('" ++ wolfram (snd z) ++ lit "')I".
Definition half2 (z : complex) : pystr := lit "'" ++ wolfram (fst z) ++ lit "')+'" ++ wolfram (snd z) ++ lit "')I".
Lemma go_mpf t t' : replaced [109; 112; 102; 40] [] 0 t = t' -> replaced [109; 112; 102; 40] [] 0 (109 :: 112 :: 102 :: 40 :: t) = t'.
Proof. intros <-. reflexivity. Qed.
Lemma component_eq z : complex_ok z -> component (given z) = quoted (lit "'") z.
Proof.
  intros [A B]. unfold component, replace, mpf_repr, given. cbn [re_text im_text].
  assert (E1 : replaced (lit "e") (lit "*^") 0 ((lit "mpf('" ++ python (fst z) ++ lit "')") ++ lit "+" ++ (lit "mpf('" ++ python (snd z) ++ lit "')") ++ lit "I") = half1 z) by (unfold half1; lits; go).
  rewrite E1. assert (E2 : replaced (lit "mpf(") (lit "") 0 (half1 z) = half2 z) by (unfold half1, half2; lits; apply go_mpf; go; apply go_mpf; go).
  rewrite E2. unfold half2, quoted. lits. go.
Qed.
Definition mom (o c q : pystr) (n i : Z) (a b d e : complex) : pystr :=
  lit "DeclareSpinorMomentum[" ++ dec i ++ lit ", " ++ o ++ lit "SetPrecision[" ++ quoted q a ++ lit ", " ++ dec n ++ lit "], SetPrecision[" ++ quoted q b ++ lit ", " ++ dec n ++
  lit "], SetPrecision[" ++ quoted q d ++ lit ", " ++ dec n ++ lit "], SetPrecision[" ++ quoted q e ++ lit ", " ++ dec n ++ lit "] " ++ c ++ lit "]".
Lemma momentum_eq n i a b c d : 0 <= n -> 0 <= i -> complex_ok a -> complex_ok b -> complex_ok c -> complex_ok d ->
  momentum_line n i ((given a, given b), (given c, given d)) = declares n i [a; b; c; d] ++ [10].
Proof.
  intros N I A B C D. unfold momentum_line. rewrite !component_eq by assumption. unfold replace. f_equal.
  destruct A as [A1 A2], B as [B1 B2], C as [C1 C2], D as [D1 D2].
  transitivity (replaced (lit "'") (lit "") 0 (replaced (lit "+-") (lit "-") 0 (replaced (lit "]]") (lit "}") 0 (replaced (lit "[[") (lit "{") 0 (mom (lit "[[") (lit "]]") (lit "'") n i a b c d))))).
  { unfold mom. lits. reflexivity. }
  assert (E1 : replaced (lit "[[") (lit "{") 0 (mom (lit "[[") (lit "]]") (lit "'") n i a b c d) = mom (lit "{") (lit "]]") (lit "'") n i a b c d) by (unfold mom, quoted; lits; go).
  assert (E2 : replaced (lit "]]") (lit "}") 0 (mom (lit "{") (lit "]]") (lit "'") n i a b c d) = mom (lit "{") (lit "}") (lit "'") n i a b c d) by (unfold mom, quoted; lits; go).
  assert (E3 : replaced (lit "+-") (lit "-") 0 (mom (lit "{") (lit "}") (lit "'") n i a b c d) = mom (lit "{") (lit "}") (lit "'") n i a b c d) by (unfold mom, quoted; lits; go).
  rewrite E1, E2, E3. unfold mom, quoted, declares, wolfram_complex. cbn [map commas]. lits. go.
Qed.
Definition spin (o c : pystr) (i : Z) (a b d e : pystr) : pystr :=
  lit "DeclareSpinorMomentum[Sp[" ++ dec i ++ lit "], " ++ o ++ o ++ a ++ c ++ lit ", " ++ o ++ b ++ c ++ c ++ lit ", " ++ o ++ o ++ d ++ lit ", " ++ e ++ c ++ c ++ lit "]".
(* a text that the replacements leave alone *)
Definition quiet (w : pystr) : Prop := ~ In 91 w /\ ~ In 93 w /\ apart w = true.
Lemma spinor_eq i a b c d : 0 <= i -> quiet (short a) -> quiet (short b) -> quiet (short c) -> quiet (short d) ->
  spinor_line i ((a, b), (c, d)) = declares_spinors i (short a) (short b) (short c) (short d) ++ [10].
Proof.
  intros I. unfold spinor_line. generalize (short a) (short b) (short c) (short d). clear a b c d. intros a b c d (A1 & A2 & A3) (B1 & B2 & B3) (C1 & C2 & C3) (D1 & D2 & D3). unfold replace. f_equal.
  transitivity (replaced (lit "+-") (lit "-") 0 (replaced (lit "]]") (lit "}") 0 (replaced (lit "[[") (lit "{") 0 (spin (lit "[[") (lit "]]") i a b c d)))).
  { unfold spin. lits. reflexivity. }
  assert (E1 : replaced (lit "[[") (lit "{") 0 (spin (lit "[[") (lit "]]") i a b c d) = spin (lit "{") (lit "]]") i a b c d).
  { unfold spin; lits; go. apply go_free; [assumption|]. go. apply go_free; [assumption|]. go. apply go_free; [assumption|]. go. apply go_free; [assumption|]. go. }
  assert (E2 : replaced (lit "]]") (lit "}") 0 (spin (lit "{") (lit "]]") i a b c d) = spin (lit "{") (lit "}") i a b c d).
  { unfold spin; lits; go. apply go_free; [assumption|]. go. apply go_free; [assumption|]. go. apply go_free; [assumption|]. go. apply go_free; [assumption|]. go. }
  assert (E3 : replaced (lit "+-") (lit "-") 0 (spin (lit "{") (lit "}") i a b c d) = spin (lit "{") (lit "}") i a b c d).
  { unfold spin; lits; go. apply go_apart; [assumption|]. go. apply go_apart; [assumption|]. go. apply go_apart; [assumption|]. go. apply go_apart; [assumption|]. go. }
  rewrite E1, E2, E3. unfold spin, declares_spinors. lits. reflexivity.
Qed.
(* python's complex numbers *)
Lemma python_in x c : decimal_ok x -> In c (python x) -> 48 <= c <= 57 \/ In c [101; 43; 45; 46].
Proof.
  intros (A & B & C) I. unfold python, written in I. rewrite !in_app_iff in I. destruct I as [I|[I|[I|I]]].
  - destruct (d_neg x); [destruct I as [<-|[]]; cbn; lia|destruct I].
  - left. destruct A as [_ F]. rewrite Forall_forall in F. exact (F c I).
  - destruct (d_frac x) as [u|]; [|destruct I]. apply in_app_iff in I. destruct I as [[<-|[]]|I]; [cbn; lia|]. left. destruct B as [_ F]. rewrite Forall_forall in F. exact (F c I).
  - destruct (d_exp x) as [[n u]|]; [|destruct I]. rewrite !in_app_iff in I. destruct I as [[<-|[]]|[I|I]]; [cbn; lia|destruct n; destruct I as [<-|[]]; cbn; lia|]. left. destruct C as [_ F]. rewrite Forall_forall in F. exact (F c I).
Qed.
Lemma python_out x c : decimal_ok x -> (c < 48 \/ 57 < c) -> ~ In c [101; 43; 45; 46] -> ~ In c (python x).
Proof. intros X C N I. apply (python_in x c X) in I. destruct I as [I|I]; [lia|exact (N I)]. Qed.
Ltac go' := repeat (go; try lazymatch goal with |- replaced _ _ 0 (python _ ++ _) = _ => apply go_free; [apply python_out; [assumption|lia|cbn; lia]|] end).
Lemma short_eq w w' : python_complex w w' -> short w = w'.
Proof.
  unfold short, replace. intros [x y X Y | y Y].
  - destruct (d_neg y).
    + assert (E : replaced (lit "j") (lit "I") 0 (lit "(" ++ python x ++ [] ++ python y ++ lit "j)") = lit "(" ++ python x ++ [] ++ python y ++ lit "I)") by (lits; go'). rewrite E. lits. go'.
    + assert (E : replaced (lit "j") (lit "I") 0 (lit "(" ++ python x ++ lit "+" ++ python y ++ lit "j)") = lit "(" ++ python x ++ lit "+" ++ python y ++ lit "I)") by (lits; go'). rewrite E. lits. go'.
  - assert (E : replaced (lit "j") (lit "I") 0 (python y ++ lit "j") = python y ++ lit "I") by (lits; go'). rewrite E. lits. go'.
Qed.
Lemma plus_wolfram y : decimal_ok y -> d_neg y = false -> apart (43 :: wolfram y) = true.
Proof.
  intros Y N. pose proof (wolfram_apart y Y) as A. cbn [apart Z.eqb Pos.eqb negb orb]. rewrite A, andb_true_r. unfold wolfram, written. rewrite N. cbn [app]. destruct Y as (F & _). destruct (d_int y) as [|d u] eqn:E; [destruct F as [F _]; congruence|]. cbn [app].
  destruct F as [_ F]. inversion F; subst. rewrite (proj2 (Z.eqb_neq d 45)) by lia. reflexivity.
Qed.
Lemma complex_quiet w w' : python_complex w w' -> quiet w'.
Proof.
  intros [x y X Y | y Y].
  - assert (Q : forall c, In c [91; 93] -> ~ In c (lit "(" ++ wolfram x ++ (if d_neg y then [] else lit "+") ++ wolfram y ++ lit "I)")).
    { intros c C I. rewrite !in_app_iff in I. destruct I as [I|[I|[I|[I|I]]]].
      - cbn in I, C. lia.
      - apply (wolfram_out x c X) in I; [exact I|cbn in C; lia|cbn in C |- *; lia].
      - destruct (d_neg y); cbn in I, C; lia.
      - apply (wolfram_out y c Y) in I; [exact I|cbn in C; lia|cbn in C |- *; lia].
      - cbn in I, C. lia. }
    split; [apply Q; cbn; auto|]. split; [apply Q; cbn; auto|]. apply apart_app; [reflexivity|]. apply apart_app; [apply wolfram_apart, X|]. rewrite app_assoc. apply apart_app; [|reflexivity].
    destruct (d_neg y) eqn:N; [apply wolfram_apart, Y|apply plus_wolfram; assumption].
  - split; [|split].
    + intros I. apply in_app_iff in I. destruct I as [I|I]; [apply (wolfram_out y 91 Y) in I; [exact I|lia|cbn; lia]|cbn in I; lia].
    + intros I. apply in_app_iff in I. destruct I as [I|I]; [apply (wolfram_out y 93 Y) in I; [exact I|lia|cbn; lia]|cbn in I; lia].
    + apply apart_app; [apply wolfram_apart, Y|reflexivity].
Qed.
(* all legs *)
Lemma legs_lines {A B} (line : Z -> A -> pystr) (f : Z -> B -> pystr) (R : A -> B -> Prop) : (forall i a b, 0 <= i -> R a b -> line i a = f i b ++ [10]) ->
  forall s s', Forall2 R s s' -> forall i, 0 <= i -> but_last (by_legs line i s) = lines (numbered f i s').
Proof.
  intros F s s' H. assert (G : forall i, 0 <= i -> by_legs line i s = match s' with [] => [] | _ => lines (numbered f i s') ++ [10] end).
  { induction H as [|a b s s' Hab H IH]; intros i Hi; [reflexivity|]. cbn [by_legs numbered]. rewrite (F i a b Hi Hab), (IH (i + 1)) by lia. destruct H as [|c d s s' Hcd H]; cbn [numbered lines]; [rewrite app_nil_r; reflexivity|]. rewrite <- !app_assoc. reflexivity. }
  intros i Hi. rewrite (G i Hi). unfold but_last. destruct H as [|a b s s' Hab H]; [reflexivity|]. rewrite app_length. cbn [length]. rewrite Nat.add_sub, firstn_app, firstn_all, Nat.sub_diag. cbn [firstn]. apply app_nil_r.
Qed.
Theorem momenta_text n s : 0 <= n -> Forall (fun p => complex_ok (fst (fst p)) /\ complex_ok (snd (fst p)) /\ complex_ok (fst (snd p)) /\ complex_ok (snd (snd p))) s ->
  momenta_for_mathematica n (map (fun p => ((given (fst (fst p)), given (snd (fst p))), (given (fst (snd p)), given (snd (snd p))))) s) =
  lines (numbered (fun i p => declares n i [fst (fst p); snd (fst p); fst (snd p); snd (snd p)]) 1 s).
Proof.
  intros N H. unfold momenta_for_mathematica.
  apply (legs_lines _ _ (fun a p => a = ((given (fst (fst p)), given (snd (fst p))), (given (fst (snd p)), given (snd (snd p)))) /\ complex_ok (fst (fst p)) /\ complex_ok (snd (fst p)) /\ complex_ok (fst (snd p)) /\ complex_ok (snd (snd p)))); [|induction H; cbn; constructor; auto|lia].
  intros i a p Hi (-> & A & B & C & D). apply momentum_eq; assumption.
Qed.
Theorem spinors_text s s' : Forall2 (fun p q => python_complex (fst (fst p)) (fst (fst q)) /\ python_complex (snd (fst p)) (snd (fst q)) /\ python_complex (fst (snd p)) (fst (snd q)) /\ python_complex (snd (snd p)) (snd (snd q))) s s' ->
  spinors_for_mathematica s = lines (numbered (fun i p => declares_spinors i (fst (fst p)) (snd (fst p)) (fst (snd p)) (snd (snd p))) 1 s').
Proof.
  intros H. unfold spinors_for_mathematica. eapply legs_lines; [|exact H|lia]. intros i [[a b] [c d]] [[a' b'] [c' d']] Hi (A & B & C & D). cbn [fst snd] in *.
  pose proof (short_eq _ _ A) as EA. pose proof (short_eq _ _ B) as EB. pose proof (short_eq _ _ C) as EC. pose proof (short_eq _ _ D) as ED.
  apply complex_quiet in A, B, C, D. rewrite <- EA, <- EB, <- EC, <- ED in *. apply spinor_eq; assumption.
Qed.
(* ---- the file ---- *)
Definition stray (z : complex) : pystr := wolfram (fst z) ++ lit "'+" ++ wolfram (snd z) ++ lit "'I".
Lemma bare_eq d : bare_repr d = d ++ lit "'".
Proof.
  unfold bare_repr, mpf_repr. change (skipn 5 (lit "mpf('" ++ d ++ lit "')")) with (d ++ lit "')"). change (lit "')") with (lit "'" ++ [41]). rewrite app_assoc, app_length. cbn [length]. rewrite Nat.add_sub, firstn_app, firstn_all, Nat.sub_diag. cbn [firstn]. apply app_nil_r.
Qed.
Lemma entry_eq z : complex_ok z -> entry_text (given z) = stray z.
Proof. intros [A B]. unfold entry_text, replace, given, stray. cbn [re_text im_text]. rewrite !bare_eq. lits. go. Qed.
Definition both_given (p : complex * complex) : cnum * cnum := (given (fst p), given (snd p)).
Lemma legs_numbered {A B} (line : Z -> A -> pystr) (f : Z -> B -> pystr) (g : B -> A) (Q : B -> Prop) : (forall i b, Q b -> line i (g b) = f i b) -> forall s, Forall Q s -> forall i, by_legs line i (map g s) = concat (numbered f i s).
Proof. intros F s H. induction H as [|b s Hb H IH]; intros i; [reflexivity|]. cbn [map by_legs numbered concat]. rewrite (F i b Hb), IH. reflexivity. Qed.
Lemma r_text s : Forall (fun p => complex_ok (fst p) /\ complex_ok (snd p)) s -> r_for_mathematica (map both_given s) = assigns lambda_name stray s.
Proof.
  intros H. unfold r_for_mathematica, assigns. apply (legs_numbered _ _ _ (fun p => complex_ok (fst p) /\ complex_ok (snd p))); [|exact H].
  intros i p [A B]. unfold both_given, lambda_line. cbn [fst snd]. rewrite !entry_eq by assumption. unfold lambda_name. lits. reflexivity.
Qed.
Lemma l_text s : Forall (fun p => complex_ok (fst p) /\ complex_ok (snd p)) s -> l_for_mathematica (map both_given s) = assigns lambda_bar_name stray s.
Proof.
  intros H. unfold l_for_mathematica, assigns. apply (legs_numbered _ _ _ (fun p => complex_ok (fst p) /\ complex_ok (snd p))); [|exact H].
  intros i p [A B]. unfold both_given, lambda_line. cbn [fst snd]. rewrite !entry_eq by assumption. unfold lambda_bar_name. lits. reflexivity.
Qed.
(* what is meant has no quotes *)
Lemma meant_quiet name s : ~ In 39 (lit name) -> Forall (fun p => complex_ok (fst p) /\ complex_ok (snd p)) s -> forall i, 0 <= i ->
  ~ In 39 (concat (numbered (fun i p => lit name ++ dec i ++ lit ",1] = " ++ wolfram_complex (fst p) ++ lit ";" ++ [10] ++ lit name ++ dec i ++ lit ",2] = " ++ wolfram_complex (snd p) ++ lit ";" ++ [10]) i s)).
Proof.
  intros N H. assert (W : forall z, complex_ok z -> ~ In 39 (wolfram_complex z)).
  { intros z [A B] I. unfold wolfram_complex in I. rewrite !in_app_iff in I. destruct I as [I|[I|[I|I]]]; [apply (wolfram_out _ 39 A) in I; [exact I|lia|cbn; lia]|cbn in I; lia|apply (wolfram_out _ 39 B) in I; [exact I|lia|cbn; lia]|cbn in I; lia]. }
  induction H as [|p s [A B] H IH]; intros i Hi I; [exact I|]. cbn [numbered concat] in I. apply in_app_iff in I. destruct I as [I|I]; [|exact (IH (i + 1) ltac:(lia) I)]. pose proof (W _ A). pose proof (W _ B). pose proof (digits_out 39 _ (dec_digits i Hi) ltac:(lia)).
  rewrite !in_app_iff in I. cbn in I. intuition lia.
Qed.
Lemma never_meant s : s <> [] -> Forall (fun p => complex_ok (fst p) /\ complex_ok (snd p)) s -> r_for_mathematica (map both_given s) <> assigns lambda_name wolfram_complex s /\ l_for_mathematica (map both_given s) <> assigns lambda_bar_name wolfram_complex s.
Proof.
  intros N H. rewrite r_text, l_text by exact H. assert (Q : forall name, In 39 (assigns name stray s)).
  { intros name. destruct s as [|p s]; [congruence|]. unfold assigns. cbn [numbered concat]. apply in_or_app. left. unfold stray. rewrite !in_app_iff. cbn. tauto. }
  split; intros E; [pose proof (meant_quiet lambda_name s ltac:(vm_compute; intuition discriminate) H 1 ltac:(lia)) as M; pose proof (Q lambda_name) as I
                  |pose proof (meant_quiet lambda_bar_name s ltac:(vm_compute; intuition discriminate) H 1 ltac:(lia)) as M; pose proof (Q lambda_bar_name) as I]; rewrite E in I; exact (M I).
Qed.
