(* Every string that Invariants generates for up to nine legs is read by compute as the
   invariant it is a name of, and has a number as value. *)
From Coq Require Import Ascii String.
From Coq Require Import List ZArith Bool Lia Sorted Permutation.
From Verif Require Import Base Fld Particle ParticleSpec ParticleThm Index IndexThm Phase PhaseThm Det Arcs ArcsSpec ArcsThm Compute ComputeSpec ComputeThm Symm Str MassesThm Gen GenSpec GenThm GenThm2 Parse ParseSpec ParseChars Regex RegexThm Text TextSpec TextThm TextThm2 TextThm3 TextThm4 TextThm5.
Import Compute.
Import ListNotations.
Open Scope Z_scope.
Open Scope res_scope.

Ltac alls := repeat match goal with |- Forall _ (_ :: _) => apply Forall_cons | |- Forall _ [] => apply Forall_nil end.
Ltac parts := repeat match goal with |- Forall _ (_ :: _) => apply Forall_cons | |- Forall _ [] => apply Forall_nil | |- _ /\ _ => split | |- _ <> [] => discriminate end.
Section Num.
Context {K : Fld}.
Variable s : ps K.
Hypothesis SP : spinors_all s.
Definition inr (k : Z) : Prop := 1 <= k <= zlen s.
Definition number (e : inv) : Prop := exists x, compute s e = Ok (VS x).
Lemma leg_ok k : inr k -> exists p, getitem s k = Ok p /\ forall d, exists v, side_get d p = Some v.
Proof.
  intros H. destruct (getitem_ok s k H) as (p & E & N). exists p. split; [exact E|]. apply nth_error_In in N. unfold spinors_all in SP. rewrite Forall_forall in SP.
  intros d. specialize (SP p N d). destruct (side_get d p) as [v|]; [exists v; reflexivity|congruence].
Qed.
Lemma mom_ok b k : inr k -> exists m, mom b s k = Ok m.
Proof. intros H. destruct (leg_ok k H) as (p & E & _). unfold mom. rewrite E. eexists. reflexivity. Qed.
Definition entry_in (e : entry) : Prop := inr (fst e) /\ Forall (fun x => inr (snd x)) (snd e).
Lemma rest_ok b l : Forall (fun x => inr (snd x)) l -> forall a, exists m, entry_rest b s a l = Ok m.
Proof.
  induction 1 as [|[g k] l H F IH]; intros a; cbn [entry_rest]; [eexists; reflexivity|]. destruct (mom_ok b k H) as (m & ->). cbn [rbind]. apply IH.
Qed.
Lemma entry_val_ok b e : entry_in e -> exists m, entry_val b s e = Ok m.
Proof. intros [H F]. unfold entry_val. destruct (mom_ok b _ H) as (m & ->). cbn [rbind]. apply rest_ok, F. Qed.
Lemma mid_rest_ok es : Forall entry_in es -> forall b a, exists m, mid_rest b s a es = Ok m.
Proof.
  induction 1 as [|e es H F IH]; intros b a; cbn [mid_rest]; [eexists; reflexivity|]. destruct (entry_val_ok b e H) as (m & ->). cbn [rbind]. apply IH.
Qed.
Lemma middle_ok b es : es <> [] -> Forall entry_in es -> exists m, middle b s es = Ok m.
Proof. intros N F. destruct F as [|e es H F]; [congruence|]. cbn [middle]. destruct (entry_val_ok b e H) as (m & ->). cbn [rbind]. apply mid_rest_ok, F. Qed.
Lemma chain_ok o a es d c : bracket_ok o (length es) c = true -> es <> [] -> Forall entry_in es -> inr a -> inr d -> exists x, c_chain s o a es d c = Ok x.
Proof.
  intros B N F A D. unfold c_chain. rewrite B. cbn [negb]. destruct (leg_ok a A) as (p & -> & P). destruct (leg_ok d D) as (q & -> & Q). cbn [rbind].
  destruct (middle_ok true es N F) as (m & M). destruct (middle_ok false es N F) as (m' & M').
  destruct (P RRow) as (u & U). destruct (P LRow) as (w & W). destruct (Q RCol) as (u' & U'). destruct (Q LCol) as (w' & W'). cbn [side_get] in *.
  destruct o, c; rewrite ?M, ?M', ?U, ?W, ?U', ?W'; cbn [rbind need_r]; rewrite ?U, ?W, ?U', ?W'; cbn [rbind need_r]; eexists; reflexivity.
Qed.
Lemma mom_sum_ok b l : l <> [] -> Forall inr l -> exists m, mom_sum b s l = Ok m.
Proof.
  intros N F. unfold mom_sum. destruct l as [|k l]; [congruence|].
  assert (E : exists ms, rmapM (mom b s) (k :: l) = Ok ms).
  { clear N. induction F as [|j r H F IH]; [eexists; reflexivity|]. cbn [rmapM]. destruct (mom_ok b j H) as (m & ->). destruct IH as (ms & ->). eexists; reflexivity. }
  destruct E as (ms & ->). eexists; reflexivity.
Qed.
Lemma c_S_ok l : l <> [] -> Forall inr l -> exists x, c_S s l = Ok x.
Proof. intros N F. unfold c_S. destruct (mom_sum_ok false l N F) as (m & ->). eexists; reflexivity. Qed.
Lemma num_chain o a es d c : bracket_ok o (length es) c = true -> es <> [] -> Forall entry_in es -> inr a -> inr d -> number (IChain o a es d c).
Proof. intros. unfold number, compute. destruct (chain_ok o a es d c) as (x & ->); auto. eexists; reflexivity. Qed.
Lemma num_S l : l <> [] -> Forall inr l -> number (IS l).
Proof. intros. unfold number, compute. destruct (c_S_ok l) as (x & ->); auto. eexists; reflexivity. Qed.
Lemma num_A2 a b : inr a -> inr b -> number (IA2 a b).
Proof.
  intros A B. unfold number, compute, c_A2. destruct (leg_ok a A) as (p & -> & P), (leg_ok b B) as (q & -> & Q). destruct (P RRow) as (u & U), (Q RCol) as (v & V). cbn [side_get rbind] in *.
  rewrite U, V. eexists; reflexivity.
Qed.
Lemma num_S2 a b : inr a -> inr b -> number (IS2 a b).
Proof.
  intros A B. unfold number, compute, c_S2. destruct (leg_ok a A) as (p & -> & P), (leg_ok b B) as (q & -> & Q). destruct (P LRow) as (u & U), (Q LCol) as (v & V). cbn [side_get rbind] in *.
  rewrite U, V. eexists; reflexivity.
Qed.
Lemma num_tr5 a b c d : one_digit a -> inr a -> inr b -> inr c -> inr d -> number (ITr5 (a, []) (b, []) (c, []) (d, [])).
Proof.
  intros O A B C D. unfold number, compute, c_tr5. cbn [tr5_rotate].
  assert (E : one_char (a, []) = true) by (unfold one_char, one_digit in *; cbn [snd fst]; apply andb_true_iff; split; apply Z.leb_le; lia).
  rewrite E. cbn [rbind fst].
  assert (F : Forall entry_in [(b, []); (c, []); (d, [])]) by (repeat constructor; unfold inr in *; cbn [fst snd]; lia).
  match goal with |- context [c_chain s OSq a ?l a CAng] => destruct (chain_ok OSq a l a CAng eq_refl) as (x & ->); try assumption; [discriminate|];
    destruct (chain_ok OAng a l a CSq eq_refl) as (y & ->); try assumption; [discriminate|] end. eexists; reflexivity.
Qed.
Lemma num_delta cs : Forall (fun l => l <> [] /\ Forall inr l) cs -> number (IDelta cs).
Proof.
  intros F. unfold number, compute, c_delta.
  assert (E : forall b, exists ms, rmapM (mom_sum b s) cs = Ok ms).
  { intros b. induction F as [|l r [N H] F IH]; [eexists; reflexivity|]. cbn [rmapM]. destruct (mom_sum_ok b l N H) as (m & ->). destruct IH as (ms & ->). eexists; reflexivity. }
  destruct (E false) as (x & ->), (E true) as (y & ->). eexists; reflexivity.
Qed.
Lemma arcs_in i j k : inr i -> inr j -> inr k -> i <> j -> j <> k -> i <> k ->
  exists A B C, arcs (S (length s)) (zlen s) [i; j; k] = Ok (A, B, C) /\ three_arcs (length s) i j k A B C /\ Forall inr A /\ Forall inr B /\ Forall inr C.
Proof.
  intros I J L D1 D2 D3. destruct (arcs_three (length s) i j k (S (length s)) I J L D1 D2 D3 (Nat.lt_succ_diag_r _)) as (A & B & C & E & T). exists A, B, C. split; [exact E|]. split; [exact T|].
  destruct T as (_ & _ & _ & _ & _ & _ & P).
  assert (F : Forall inr (A ++ B ++ C)). { rewrite P. unfold upto. apply Forall_map, Forall_forall. intros x Hx. apply in_seq in Hx. unfold inr, zlen. lia. }
  apply Forall_app in F as [FA F]. apply Forall_app in F as [FB FC]. auto.
Qed.
Lemma num_delta3 i j k : inr i -> inr j -> inr k -> i <> j -> j <> k -> i <> k -> number (IDelta3 [i; j; k]).
Proof.
  intros I J L D1 D2 D3. destruct (arcs_in i j k I J L D1 D2 D3) as (A & B & C & E & (HA & HB & HC & _) & FA & FB & FC). unfold number, compute, c_delta3. rewrite E. cbn [rbind].
  destruct (mom_sum_ok false A) as (m & ->); [destruct A; discriminate|assumption|]. destruct (mom_sum_ok true B) as (m' & ->); [destruct B; discriminate|assumption|]. eexists; reflexivity.
Qed.
Lemma num_Om i j k : inr i -> inr j -> inr k -> i <> j -> j <> k -> i <> k -> number (IOm [i; j; k]).
Proof.
  intros I J L D1 D2 D3. destruct (arcs_in i j k I J L D1 D2 D3) as (A & B & C & E & (HA & HB & HC & _) & FA & FB & FC). unfold number, compute, c_Omega. rewrite E. cbn [rbind].
  destruct A as [|a A]; [discriminate|]. destruct B as [|b B]; [discriminate|]. destruct C as [|c C]; [discriminate|].
  destruct (c_S_ok (c :: C)) as (x1 & ->); [discriminate|assumption|]. destruct (c_S_ok (b :: B)) as (x2 & ->); [discriminate|assumption|]. destruct (c_S_ok (a :: A)) as (x3 & ->); [discriminate|assumption|].
  destruct (c_S_ok ((c :: C) ++ [a])) as (x4 & ->); [discriminate|apply Forall_app; split; [assumption|constructor; [inversion FA; assumption|constructor]]|]. eexists; reflexivity.
Qed.
Lemma num_Pi i j k x y A B C : arcs (S (length s)) (zlen s) [i; j; k] = Ok (x :: y :: A, B, C) -> inr x -> inr y -> Forall inr C -> number (IPi [i; j; k]).
Proof.
  intros E X Y FC. unfold number, compute, c_Pi. rewrite E. cbn [rbind].
  destruct (c_S_ok (C ++ [x])) as (x1 & ->); [destruct C; discriminate|apply Forall_app; auto|]. destruct (c_S_ok (C ++ [y])) as (x2 & ->); [destruct C; discriminate|apply Forall_app; auto|]. eexists; reflexivity.
Qed.

(* ---- brackets with a middle part ---- *)
Lemma join_plus m : m <> [] -> joinp (lit "+") (map dec m) = entry_text (sum_entry m).
Proof.
  destruct m as [|k m]; [congruence|]. intros _. unfold sum_entry. cbn [hd tl]. rewrite entry_text_cons. revert k. induction m as [|j m IH]; intros k.
  - cbn [map concat joinp]. rewrite app_nil_r. reflexivity.
  - change (map dec (k :: j :: m)) with (dec k :: map dec (j :: m)). change (joinp (lit "+") (dec k :: map dec (j :: m))) with (dec k ++ lit "+" ++ joinp (lit "+") (map dec (j :: m))).
    rewrite IH. cbn [map concat fst snd]. rewrite <- app_assoc. reflexivity.
Qed.
Lemma join_bars ms : parts_ok ms -> shows_entries (map sum_entry ms) (joinp [BAR] (map render_mid ms)).
Proof.
  intros [N F]. induction F as [|m ms [M P] F IH]; [congruence|].
  assert (R : shows_entry (sum_entry m) (render_mid m)) by (unfold render_mid; rewrite join_plus by exact M; apply round; apply sum_entry_ok; auto).
  destruct ms as [|m' ms]; [constructor; exact R|]. change (joinp [BAR] (map render_mid (m :: m' :: ms))) with (render_mid m ++ [BAR] ++ joinp [BAR] (map render_mid (m' :: ms))).
  change (map sum_entry (m :: m' :: ms)) with (sum_entry m :: map sum_entry (m' :: ms)). apply (next_entry _ _ _ _ R). apply IH. discriminate.
Qed.
Definition named (t : pystr) : Prop := exists e, shows e t /\ number e.
Definition in_legs (m : list Z) : Prop := m <> [] /\ Forall inr m.
Lemma named_render b : b_mid b <> [] -> Forall in_legs (b_mid b) -> inr (b_i b) -> inr (b_j b) -> named (render b).
Proof.
  intros N F I J. unfold inr in I, J.
  exists (IChain (if b_ang b then OAng else OSq) (b_i b) (map sum_entry (b_mid b)) (b_j b) (if Bool.eqb (Nat.even (length (b_mid b))) (b_ang b) then CAng else CSq)). split.
  - assert (P : parts_ok (b_mid b)). { split; [exact N|]. eapply Forall_impl; [|exact F]. intros m [M FM]. split; [exact M|]. eapply Forall_impl; [|exact FM]. unfold inr. intros. lia. }
    apply join_bars in P. unfold render.
    replace (if b_ang b then [LANG] else [LSQ]) with (opening (if b_ang b then OAng else OSq)) by (destruct (b_ang b); reflexivity).
    replace (if Bool.eqb (Nat.even (length (b_mid b))) (b_ang b) then [RANG] else [RSQ]) with (closing (if Bool.eqb (Nat.even (length (b_mid b))) (b_ang b) then CAng else CSq)) by (destruct (Bool.eqb _ _); reflexivity).
    apply w_chain; [lia|lia|exact P].
  - apply num_chain; auto.
    + rewrite map_length. unfold bracket_ok. destruct (b_ang b), (Nat.even (length (b_mid b))); reflexivity.
    + destruct (b_mid b); [congruence|discriminate].
    + apply Forall_map. eapply Forall_impl; [|exact F]. intros m [M FM]. destruct FM as [|k m HK FM]; [congruence|]. split; [exact HK|]. cbn [sum_entry snd tl]. apply Forall_map. exact FM.
Qed.

Hypothesis N9 : zlen s <= 9.
Let n := zlen s.
Lemma inr_legs l : l <> [] -> Forall inr l -> legs l.
Proof. intros N F. split; [exact N|]. eapply Forall_impl; [|exact F]. unfold inr, one_digit. intros. lia. Qed.
Lemma legset_inr I : legset n I -> Forall inr I.
Proof. intros [_ F]. exact F. Qed.
Lemma inr_digits I : Forall inr I -> concat (map dec I) = digits_text I.
Proof. intros F. unfold digits_text. apply digits_concat. eapply Forall_impl; [|exact F]. unfold inr. intros. lia. Qed.
Lemma named_2 t : In t (gen_2 n) -> named t.
Proof.
  intros H. apply gen_2_only in H as (i & j & I & J & [->| ->]).
  - exists (IA2 i j). split; [|apply num_A2; unfold inr; fold n; lia]. apply (w_A2 i j OAng CAng); try lia; left; reflexivity.
  - exists (IS2 i j). split; [|apply num_S2; unfold inr; fold n; lia]. apply w_S2; lia.
Qed.
Lemma named_s t : In t (gen_s n) -> named t.
Proof.
  intros H. apply gen_s_only in H as (I & L & W & ->); [|exact N9]. apply legset_inr in L. assert (I <> []) by (destruct I; [cbn in W; lia|discriminate]).
  exists (IS I). split; [|apply num_S; assumption]. unfold s_name. rewrite inr_digits by assumption. apply (w_S I (lit "s") (lit "_")); [left; reflexivity|left; reflexivity|apply inr_legs; assumption].
Qed.
Lemma named_tr5 t : In t (gen_tr5 n) -> named t.
Proof.
  intros H. destruct (Z_lt_le_dec n 5) as [L|L]; [rewrite gen_tr5_small in H by exact L; destruct H|].
  apply gen_tr5_only in H as (I & G & W & ->); [|fold n in N9; lia].
  assert (F : Forall inr I). { destruct G as [_ F]. eapply Forall_impl; [|exact F]. unfold inr. fold n. intros. lia. }
  unfold tr5_name. rewrite inr_digits by assumption. do 5 (destruct I as [|? I]; try discriminate). pose proof (proj1 (Forall_forall _ _) F) as Q.
  exists (ITr5 (z, []) (z0, []) (z1, []) (z2, [])). split.
  - apply w_tr5. eapply Forall_impl; [|exact F]. unfold inr, one_digit. intros. lia.
  - apply num_tr5; try (apply Q; cbn [In]; tauto). assert (inr z) by (apply Q; left; reflexivity). unfold one_digit, inr in *. lia.
Qed.
Lemma named_triple i j k : inr i -> inr j -> inr k -> i <> j -> j <> k -> i <> k -> named (delta_name i j k).
Proof.
  intros I J L D1 D2 D3. exists (IDelta3 [i; j; k]). split; [|apply num_delta3; assumption].
  replace (delta_name i j k) with ([916; 95] ++ digits_text [i; j; k]).
  - apply w_Delta3. apply inr_legs; [discriminate|alls; assumption].
  - rewrite <- inr_digits by (alls; assumption). unfold delta_name. cbn [map concat app]. rewrite app_nil_r. reflexivity.
Qed.
Lemma named_D t : In t (gen_D n) -> named t.
Proof.
  intros H. apply gen_D_only in H as (a & b & c & T & [->| ->]); unfold three_corners in T; apply named_triple; unfold inr; fold n; lia.
Qed.
Lemma named_O t : In t (gen_O n) -> named t.
Proof.
  unfold gen_O. destruct (Z.eqb_spec n 6) as [E|E]; [|intros []]. rewrite E.
  replace (generate_O 6) with (map (fun l => [937; 95] ++ digits_text l) [[1; 3; 5]; [3; 5; 1]; [5; 1; 3]; [6; 2; 4]; [2; 4; 6]; [4; 6; 2]]) by (vm_compute; reflexivity).
  intros H. apply in_map_iff in H as (l & <- & H). cbn [In] in H. repeat destruct H as [<-|H]; try contradiction;
    (eexists; split; [apply w_Om, inr_legs; [discriminate|alls; unfold inr; fold n; lia]|apply num_Om; unfold inr; fold n; lia]).
Qed.
Lemma named_P t : In t (gen_P n) -> named t.
Proof.
  unfold gen_P. destruct (Z.eqb_spec n 6) as [E|E]; [|intros []]. rewrite E.
  replace (map (map (fun c => if c =? OMEGA then PI else c)) (generate_O 6)) with (map (fun l => [928; 95] ++ digits_text l) [[1; 3; 5]; [3; 5; 1]; [5; 1; 3]; [6; 2; 4]; [2; 4; 6]; [4; 6; 2]]) by (vm_compute; reflexivity).
  assert (L6 : length s = 6%nat) by (unfold n, zlen in E; lia).
  intros H. apply in_map_iff in H as (l & <- & H). cbn [In] in H. repeat destruct H as [<-|H]; try contradiction;
    (eexists; split; [apply w_Pi, inr_legs; [discriminate|alls; unfold inr; fold n; lia]|eapply num_Pi; [unfold zlen; rewrite L6; vm_compute; reflexivity|unfold inr; fold n; lia|unfold inr; fold n; lia|alls; unfold inr; fold n; lia]]).
Qed.
Lemma named_3 l b : gen_N n 3 = Ok l -> In b l -> named (render b).
Proof.
  intros E H. destruct (three_once n) as (l' & E' & _ & W & _). rewrite E in E'. injection E' as <-. destruct (W b H) as (i & S & j & T & -> & I & J & (LS & _) & LEN).
  apply named_render; cbn [b_mid b_i b_j]; [discriminate| |exact I|exact J]. constructor; [|constructor]. split; [destruct S; [cbn in LEN; lia|discriminate]|]. apply legset_inr. exact LS.
Qed.
Lemma beside_inr m a : incl m (beside n a 0) -> Forall inr m.
Proof. intros H. apply Forall_forall. intros x Hx. apply H, beside_In in Hx. unfold inr. fold n. lia. Qed.
Lemma named_4 ord l b : gen_4 ord n = Ok l -> In b l -> named (render b).
Proof.
  intros E H. destruct (gen_4_good ord n l b E H) as (m & m' & M & I & J & _ & _ & _ & B & B' & L & L').
  apply named_render; rewrite ?M; [discriminate| |unfold inr; fold n; lia|unfold inr; fold n; lia].
  alls; (split; [|eapply beside_inr; eassumption]); [destruct m|destruct m']; try discriminate; cbn in *; lia.
Qed.
Lemma rotate_perm l : Permutation (rotate1 l) l.
Proof. destruct l; [reflexivity|]. cbn [rotate1]. symmetry. apply Permutation_cons_append. Qed.
Lemma rotates_perm k l : Permutation (Nat.iter k rotate1 l) l.
Proof. induction k; cbn [Nat.iter nat_rect]; [reflexivity|]. etransitivity; [apply rotate_perm|exact IHk]. Qed.
Lemma beside_one i : filter (fun x => negb (x =? i)) (zrange 1 (n + 1)) = filter (fun x => negb (x =? i) && negb (x =? i)) (zrange 1 (n + 1)).
Proof. apply filter_ext. intros x. destruct (x =? i); reflexivity. Qed.
Lemma named_5 iset b : set_order iset -> In b (gen_5 iset n) -> named (render b).
Proof.
  intros SO. unfold gen_5. destruct (n >=? 7) eqn:G; [|intros []]. rewrite Z.geb_leb in G. apply Z.leb_le in G. unfold generate_5. intros H.
  apply in_flat_map in H as (i & Hi & H). apply zrange_In in Hi. cbv zeta in H.
  set (ps0 := filter (fun x => negb (x =? i)) (zrange 1 (n + 1))) in *.
  apply in_flat_map in H as (kk & _ & H). set (P := Nat.iter kk rotate1 ps0) in *.
  assert (PP : Permutation P ps0) by apply rotates_perm.
  assert (PI : forall x, In x P -> inr x). { intros x Hx. eapply Permutation_in in Hx; [|exact PP]. apply filter_In in Hx as [Hx _]. apply zrange_In in Hx. unfold inr. fold n. lia. }
  assert (ND : NoDup P). { eapply Permutation_NoDup; [symmetry; exact PP|]. apply NoDup_filter, zrange_NoDup. }
  assert (LP : Z.of_nat (length P) = n - 1).
  { rewrite (Permutation_length PP). unfold ps0. pose proof (beside_len n i i) as BL. unfold adj_ok in BL. rewrite Z.eqb_refl, orb_true_r in BL. rewrite <- BL by lia.
    f_equal. f_equal. unfold beside. rewrite beside_one. apply filter_ext. intros x. reflexivity. }
  apply in_flat_map in H as (j & Hj & H). apply zrange_In in Hj. destruct (check_neighbouring n (firstn (Z.to_nat j) P)); [|destruct H]. cbn [negb] in H.
  apply in_flat_map in H as (k & Hk & H). apply zrange_In in Hk. destruct (check_neighbouring n (firstn (Z.to_nat k) (skipn (Z.to_nat j) P))); [|destruct H]. cbn [negb] in H.
  set (m1 := firstn (Z.to_nat j) P) in *. set (m2 := firstn (Z.to_nat k) (skipn (Z.to_nat j) P)) in *. set (m3 := iset (set_diff (set_diff P m1) m2)) in *.
  destruct (check_neighbouring n m3); [|destruct H]. cbn [negb] in H. destruct H as [<-|[]].
  assert (SPL : P = m1 ++ m2 ++ skipn (Z.to_nat k) (skipn (Z.to_nat j) P)) by (unfold m1, m2; rewrite !firstn_skipn; reflexivity).
  set (r := skipn (Z.to_nat k) (skipn (Z.to_nat j) P)) in *.
  assert (LR : r <> []). { intros R. apply (f_equal (@length Z)) in R. unfold r in R. rewrite !skipn_length in R. cbn in R. lia. }
  assert (L1 : m1 <> []). { intros R. apply (f_equal (@length Z)) in R. unfold m1 in R. rewrite firstn_length in R. cbn in R. lia. }
  assert (L2 : m2 <> []). { intros R. apply (f_equal (@length Z)) in R. unfold m2 in R. rewrite firstn_length, skipn_length in R. cbn in R. lia. }
  assert (I3 : forall x, In x m3 -> In x P). { intros x Hx. apply (proj1 (SO _ _)) in Hx. unfold set_diff in Hx. apply filter_In in Hx as [Hx _]. apply filter_In in Hx as [Hx _]. exact Hx. }
  assert (L3 : m3 <> []).
  { destruct r as [|x r0] eqn:ER; [congruence|]. intros R. assert (X : In x m3); [|rewrite R in X; destruct X].
    apply (proj2 (SO _ _)). unfold set_diff. apply filter_In. rewrite SPL in ND.
    assert (NX : ~ In x m1 /\ ~ In x m2). { rewrite app_assoc in ND. apply NoDup_remove_2 in ND. rewrite !in_app_iff in ND. tauto. }
    split; [apply filter_In; split|].
    - rewrite SPL. rewrite !in_app_iff. right; right; left; reflexivity.
    - apply negb_true_iff, memz_false. tauto.
    - apply negb_true_iff, memz_false. tauto. }
  assert (I1 : forall x, In x m1 -> In x P) by (intros x Hx; rewrite SPL; rewrite in_app_iff; left; exact Hx).
  assert (I2 : forall x, In x m2 -> In x P) by (intros x Hx; rewrite SPL; rewrite !in_app_iff; right; left; exact Hx).
  apply named_render; cbn [b_mid b_i b_j]; [discriminate| |unfold inr; fold n; lia|unfold inr; fold n; lia].
  alls; split; auto; apply Forall_forall; auto.
Qed.
Lemma named_corners cs t : Forall in_legs cs -> (2 <= length cs)%nat -> shows_corners cs t -> named ([916; 95] ++ t).
Proof. intros F L S. exists (IDelta cs). split; [apply w_Delta; assumption|apply num_delta; exact F]. Qed.
Lemma purge4_incl k f l l' : purge4 k f l = Ok l' -> incl l' l.
Proof. unfold purge4. destruct f; [|destruct (existsb minimal l); [discriminate|]]; intros H; injection H as <-; intros x Hx; apply filter_In in Hx; tauto. Qed.
Lemma added_In (test : pystr -> result bool) l : forall r t, rmapM (fun inv => rmap (fun b : bool => if b then [inv] else []) (test inv)) l = Ok r -> In t (concat r) -> In t l.
Proof.
  induction l as [|x l IH]; intros r t E H; cbn [rmapM] in E; [injection E as <-; destruct H|].
  destruct (test x) as [b|]; [|discriminate]. cbn [rmap rbind] in E. destruct (rmapM _ l) as [r'|] eqn:R; [|discriminate]. cbn in E. injection E as <-. cbn [concat] in H. apply in_app_or in H as [H|H].
  - destruct b; [destruct H as [<-|[]]; left; reflexivity|destruct H].
  - right. eapply IH; [reflexivity|exact H].
Qed.
Theorem full_named v o l t : set_order (e_iset v) -> from_scratch v n o = Ok l -> In t (full l) -> named t.
Proof.
  intros SO E H. unfold from_scratch in E. destruct (gen_N n 3) as [three|] eqn:E3; [|discriminate]. cbn [rbind] in E. destruct (gen_4 (e_ord v) n) as [four|] eqn:E4; [|discriminate]. cbn [rbind] in E.
  destruct (if o_r4 o then purge4 n (o_f4 o) four else Ok four) as [four'|] eqn:E4'; [|discriminate]. cbn [rbind] in E.
  destruct (if (n =? 6) && negb (o_no_hard o) then rmap (@concat pystr) (rmapM (fun inv => rmap (fun b : bool => if b then [inv] else []) (e_test v inv)) hard_coded) else Ok []) as [added|] eqn:EA; [|discriminate]. cbn [rbind] in E.
  injection E as <-. unfold full in H. cbn [invs_2 invs_3 invs_4 invs_5 invs_s invs_D invs_O invs_P invs_tr5] in H.
  repeat rewrite in_app_iff in H. destruct H as [H|[[H|H]|[[H|H]|[H|[H|[[H|H]|[H|[H|H]]]]]]]].
  - apply named_2, H.
  - apply in_map_iff in H as (b & <- & H). eapply named_3; [exact E3|]. destruct (o_r3 o); [|exact H]. apply filter_In in H. tauto.
  - destruct (Z.eqb_spec n 6) as [N6|_]; [|injection EA as <-; destruct H]. cbn [andb] in EA. destruct (negb (o_no_hard o)); [|injection EA as <-; destruct H].
    destruct (rmapM _ hard_coded) as [r|] eqn:R in EA; [|discriminate]. cbn [rmap rbind] in EA. injection EA as <-. eapply added_In in H; [|exact R]. unfold hard_coded in H. apply in_map_iff in H as (b & <- & H). cbn [In] in H.
    repeat destruct H as [<-|H]; try contradiction; (apply named_render; cbn [b_mid b_i b_j]; [discriminate|unfold in_legs; parts; unfold inr; fold n; lia|unfold inr; fold n; lia|unfold inr; fold n; lia]).
  - apply in_map_iff in H as (b & <- & H). eapply named_4; [exact E4|]. destruct (o_r4 o); [eapply purge4_incl; eassumption|injection E4' as <-; exact H].
  - destruct (Z.eqb_spec n 7) as [N7|_]; [|destruct H]. cbn [In] in H. destruct H as [<-|[<-|[<-|[]]]].
    + apply named_render; cbn [b_mid b_i b_j]; [discriminate|unfold in_legs; parts; unfold inr; fold n; lia|unfold inr; fold n; lia|unfold inr; fold n; lia].
    + apply named_render; cbn [b_mid b_i b_j]; [discriminate|unfold in_legs; parts; unfold inr; fold n; lia|unfold inr; fold n; lia|unfold inr; fold n; lia].
    + change (delta_lit "12|347|56") with ([916; 95] ++ (digits_text [1; 2] ++ lit "|" ++ digits_text [3; 4; 7] ++ lit "|" ++ digits_text [5; 6])).
      apply (named_corners [[1; 2]; [3; 4; 7]; [5; 6]]); [unfold in_legs; parts; unfold inr; fold n; lia|cbn; lia|]. repeat constructor; parts; unfold one_digit; lia.
  - apply in_map_iff in H as (b & <- & H). eapply named_5; eassumption.
  - apply named_s, H.
  - apply named_D, H.
  - destruct (Z.eqb_spec n 6) as [N6|_]; [|destruct H]. cbn [In] in H. destruct H as [<-|[<-|[<-|[]]]].
    + change (delta_lit "15|26|34") with ([916; 95] ++ (digits_text [1; 5] ++ lit "|" ++ digits_text [2; 6] ++ lit "|" ++ digits_text [3; 4])).
      apply (named_corners [[1; 5]; [2; 6]; [3; 4]]); [unfold in_legs; parts; unfold inr; fold n; lia|cbn; lia|]. repeat constructor; parts; unfold one_digit; lia.
    + change (delta_lit "14|23|56") with ([916; 95] ++ (digits_text [1; 4] ++ lit "|" ++ digits_text [2; 3] ++ lit "|" ++ digits_text [5; 6])).
      apply (named_corners [[1; 4]; [2; 3]; [5; 6]]); [unfold in_legs; parts; unfold inr; fold n; lia|cbn; lia|]. repeat constructor; parts; unfold one_digit; lia.
    + change (delta_lit "13|24|56") with ([916; 95] ++ (digits_text [1; 3] ++ lit "|" ++ digits_text [2; 4] ++ lit "|" ++ digits_text [5; 6])).
      apply (named_corners [[1; 3]; [2; 4]; [5; 6]]); [unfold in_legs; parts; unfold inr; fold n; lia|cbn; lia|]. repeat constructor; parts; unfold one_digit; lia.
  - apply named_O, H.
  - apply named_P, H.
  - apply named_tr5, H.
Qed.
Theorem full_computed v o l t f A : set_order (e_iset v) -> from_scratch v n o = Ok l -> In t (full l) -> exists x, compute_text (S f) s A t = Ok (AVal (VS x)).
Proof.
  intros SO E H. destruct (full_named v o l t SO E H) as (e & Sh & x & C). exists x. rewrite (compute_shows s A f e t t Sh (in_bold_refl t)), C. reflexivity.
Qed.
End Num.
