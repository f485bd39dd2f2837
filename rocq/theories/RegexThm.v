(* Regular expressions as relations. *)
From Coq Require Import Ascii String.
From Coq Require Import List ZArith Bool Lia.
From Verif Require Import Base Str Regex.
Import ListNotations.
Open Scope Z_scope.
Lemma digit_range c : is_digit c = true <-> 48 <= c <= 57.
Proof. unfold is_digit. rewrite andb_true_iff, !Z.leb_le. tauto. Qed.

(* every way in which an expression can match a whole text *)
Inductive par : re -> pystr -> caps -> Prop :=
| par_eps : par REps [] []
| par_chr f c : f c = true -> par (RChr f) [c] []
| par_seq a b s t g h : par a s g -> par b t h -> par (RSeq a b) (s ++ t) (g ++ h)
| par_l a b s g : par a s g -> par (RAlt a b) s g
| par_r a b s g : par b s g -> par (RAlt a b) s g
| par_done a : par (RStar a) [] []
| par_more a s t g h : s <> [] -> par a s g -> par (RStar a) t h -> par (RStar a) (s ++ t) (g ++ h)
| par_grp n a s g : par a s g -> par (RGrp n a) s (g ++ [(n, s)]).

Lemma loop_sound a one : (forall s g r, In (g, r) (one s) -> exists p, s = p ++ r /\ par a p g) ->
  forall n s g r, In (g, r) (loop one n s) -> exists p, s = p ++ r /\ par (RStar a) p g.
Proof.
  intros H. induction n as [|n IH]; intros s g r I; cbn [loop] in I; apply in_app_or in I; destruct I as [I|[I|[]]].
  - destruct I.
  - injection I as <- <-. exists []. split; [reflexivity|constructor].
  - apply in_flat_map in I. destruct I as ((g1, r1) & I1 & I2). cbn [fst snd] in I2.
    destruct (length r1 <? length s)%nat eqn:L; [|destruct I2]. apply Nat.ltb_lt in L.
    apply in_map_iff in I2. destruct I2 as ((g2, r2) & E & I2). cbn [fst snd] in E. injection E as <- <-.
    destruct (H _ _ _ I1) as (p1 & -> & P1). destruct (IH _ _ _ I2) as (p2 & -> & P2).
    exists (p1 ++ p2). split; [apply app_assoc|]. apply par_more; auto. intros ->. cbn in L. lia.
  - injection I as <- <-. exists []. split; [reflexivity|constructor].
Qed.
Lemma tries_sound a : forall s g r, In (g, r) (tries a s) -> exists p, s = p ++ r /\ par a p g.
Proof.
  induction a as [| f | a IHa b IHb | a IHa b IHb | a IHa | n a IHa]; intros s g r I; cbn [tries] in I.
  - destruct I as [I|[]]. injection I as <- <-. exists []. split; [reflexivity|constructor].
  - destruct s as [|c s]; [destruct I|]. destruct (f c) eqn:E; [|destruct I]. destruct I as [I|[]]. injection I as <- <-. exists [c]. split; [reflexivity|constructor; exact E].
  - apply in_flat_map in I. destruct I as ((g1, r1) & I1 & I2). apply in_map_iff in I2. destruct I2 as ((g2, r2) & E & I2). cbn [fst snd] in *. injection E as <- <-.
    destruct (IHa _ _ _ I1) as (p1 & -> & P1). destruct (IHb _ _ _ I2) as (p2 & -> & P2). exists (p1 ++ p2). split; [apply app_assoc|constructor; auto].
  - apply in_app_or in I. destruct I as [I|I]; [destruct (IHa _ _ _ I) as (p & E & P)|destruct (IHb _ _ _ I) as (p & E & P)]; exists p; split; auto; [apply par_l|apply par_r]; auto.
  - eapply loop_sound; [|exact I]. exact IHa.
  - apply in_map_iff in I. destruct I as ((g1, r1) & E & I). cbn [fst snd] in E. injection E as <- <-. destruct (IHa _ _ _ I) as (p & -> & P).
    exists p. split; [reflexivity|]. replace (firstn (length (p ++ r1) - length r1) (p ++ r1)) with p; [constructor; exact P|].
    rewrite app_length. replace (length p + length r1 - length r1)%nat with (length p) by lia. rewrite firstn_app, firstn_all, Nat.sub_diag. cbn. rewrite app_nil_r. reflexivity.
Qed.
Lemma loop_complete a p g : par (RStar a) p g -> (forall p g r, par a p g -> In (g, r) (tries a (p ++ r))) ->
  forall n r, (length p <= n)%nat -> In (g, r) (loop (tries a) n (p ++ r)).
Proof.
  intros P H. remember (RStar a) as q eqn:Q. induction P as [| | | | | a' | a' s t g h N P1 _ P2 IH |]; try discriminate; injection Q as ->; intros n r L.
  - destruct n; cbn [loop app]; [left; reflexivity|]. apply in_or_app. right. left. reflexivity.
  - rewrite app_length in L. destruct s as [|c s]; [congruence|]. destruct n as [|n]; [cbn in L; lia|]. cbn [loop]. apply in_or_app. left.
    rewrite <- app_assoc. apply in_flat_map. exists (g, t ++ r). split; [apply H, P1|]. cbn [fst snd].
    replace (length (t ++ r) <? length ((c :: s) ++ t ++ r))%nat with true by (symmetry; apply Nat.ltb_lt; rewrite !app_length; cbn; lia).
    apply in_map_iff. exists (h, r). split; [reflexivity|]. apply IH; [reflexivity|]. cbn in L. lia.
Qed.
Lemma tries_complete a : forall p g r, par a p g -> In (g, r) (tries a (p ++ r)).
Proof.
  induction a as [| f | a IHa b IHb | a IHa b IHb | a IHa | n a IHa]; intros p g r P.
  - inversion P; subst. left. reflexivity.
  - inversion P; subst. cbn [app tries]. rewrite H0. left. reflexivity.
  - inversion P; subst. cbn [tries]. rewrite <- app_assoc. apply in_flat_map. eexists. split; [apply IHa; eassumption|]. cbn [fst snd].
    apply in_map_iff. eexists. split; [|apply IHb; eassumption]. reflexivity.
  - cbn [tries]. apply in_or_app. inversion P; subst; [left|right]; auto.
  - cbn [tries]. apply loop_complete; auto. rewrite app_length. lia.
  - inversion P; subst. cbn [tries]. apply in_map_iff. eexists. split; [|apply IHa; eassumption]. cbn [fst snd]. f_equal. f_equal.
    rewrite app_length. replace (length p + length r - length r)%nat with (length p) by lia. rewrite firstn_app, firstn_all, Nat.sub_diag. cbn. rewrite app_nil_r. reflexivity.
Qed.
Lemma search_some r s g : search r s = Some g -> par r s g.
Proof.
  unfold search. destruct (find _ _) as [[g' u]|] eqn:E; [|discriminate]. intros H. injection H as <-. apply find_some in E. destruct E as [I L]. cbn [snd] in L.
  apply Nat.eqb_eq in L. destruct u; [|discriminate]. destruct (tries_sound _ _ _ _ I) as (p & -> & P). rewrite app_nil_r. exact P.
Qed.
Lemma search_none r s : search r s = None <-> forall g, ~ par r s g.
Proof.
  split.
  - unfold search. destruct (find _ _) eqn:E; [discriminate|]. intros _ g P. apply (tries_complete r s g []) in P. rewrite app_nil_r in P.
    apply (find_none _ _ E) in P. cbn in P. discriminate.
  - intros H. destruct (search r s) as [g|] eqn:E; [|reflexivity]. destruct (H g). apply search_some, E.
Qed.
Lemma search_unique r s g : par r s g -> (forall h, par r s h -> h = g) -> search r s = Some g.
Proof.
  intros P U. destruct (search r s) as [h|] eqn:E; [f_equal; apply U, search_some, E|]. destruct (proj1 (search_none r s) E g P).
Qed.

(* ---- first and last characters ---- *)
Fixpoint nullable (r : re) : bool :=
  match r with REps => true | RChr _ => false | RSeq a b => nullable a && nullable b | RAlt a b => nullable a || nullable b | RStar _ => true | RGrp _ a => nullable a end.
Fixpoint firsts (r : re) (c : Z) : bool :=
  match r with REps => false | RChr f => f c | RSeq a b => firsts a c || nullable a && firsts b c | RAlt a b => firsts a c || firsts b c | RStar a => firsts a c | RGrp _ a => firsts a c end.
Fixpoint lasts (r : re) (c : Z) : bool :=
  match r with REps => false | RChr f => f c | RSeq a b => lasts b c || nullable b && lasts a c | RAlt a b => lasts a c || lasts b c | RStar a => lasts a c | RGrp _ a => lasts a c end.
Lemma par_nullable r s g : par r s g -> s = [] -> nullable r = true.
Proof.
  induction 1 as [| | a b s t g h _ IH1 _ IH2 | a b s g _ IH | a b s g _ IH | | | n a s g _ IH]; intros E; cbn [nullable]; try reflexivity; try discriminate.
  - apply app_eq_nil in E. destruct E. rewrite IH1, IH2; auto.
  - rewrite IH; auto.
  - rewrite IH; auto. apply orb_true_r.
  - auto.
Qed.
Lemma par_first r s g : par r s g -> forall c u, s = c :: u -> firsts r c = true.
Proof.
  induction 1 as [| f c H | a b s t g h P1 IH1 P2 IH2 | a b s g _ IH | a b s g _ IH | a | a s t g h N P1 IH1 P2 IH2 | n a s g _ IH]; intros k u E; cbn [firsts].
  - discriminate.
  - injection E as <- <-. exact H.
  - destruct s as [|x s]; cbn [app] in E.
    + rewrite (par_nullable _ _ _ P1 eq_refl), (IH2 _ _ E). apply orb_true_r.
    + injection E as -> E. rewrite (IH1 k s eq_refl). reflexivity.
  - rewrite (IH _ _ E). reflexivity.
  - rewrite (IH _ _ E). apply orb_true_r.
  - discriminate.
  - destruct s as [|x s]; [congruence|]. cbn [app] in E. injection E as -> E. exact (IH1 k s eq_refl).
  - exact (IH _ _ E).
Qed.
Lemma par_last r s g : par r s g -> forall c u, s = u ++ [c] -> lasts r c = true.
Proof.
  induction 1 as [| f c H | a b s t g h P1 IH1 P2 IH2 | a b s g _ IH | a b s g _ IH | a | a s t g h N P1 IH1 P2 IH2 | n a s g _ IH]; intros k u E; cbn [lasts].
  - destruct u; discriminate.
  - change [c] with ([] ++ [c]) in E. apply app_inj_tail in E. destruct E as [_ <-]. exact H.
  - destruct t as [|x t] using rev_ind.
    + rewrite app_nil_r in E. rewrite (par_nullable _ _ _ P2 eq_refl), (IH1 _ _ E). apply orb_true_r.
    + rewrite app_assoc in E. apply app_inj_tail in E. destruct E as [_ ->]. rewrite (IH2 k t eq_refl). reflexivity.
  - rewrite (IH _ _ E). reflexivity.
  - rewrite (IH _ _ E). apply orb_true_r.
  - destruct u; discriminate.
  - destruct t as [|x t] using rev_ind.
    + rewrite app_nil_r in E. exact (IH1 _ _ E).
    + rewrite app_assoc in E. apply app_inj_tail in E. destruct E as [_ ->]. exact (IH2 k t eq_refl).
  - exact (IH _ _ E).
Qed.
Lemma no_first r c s : firsts r c = false -> search r (c :: s) = None.
Proof. intros H. apply search_none. intros g P. rewrite (par_first _ _ _ P c s eq_refl) in H. discriminate. Qed.
Lemma no_last r c s : lasts r c = false -> search r (s ++ [c]) = None.
Proof. intros H. apply search_none. intros g P. rewrite (par_last _ _ _ P c s eq_refl) in H. discriminate. Qed.
(* every character *)
Fixpoint chars (r : re) (c : Z) : bool :=
  match r with REps => false | RChr f => f c | RSeq a b | RAlt a b => chars a c || chars b c | RStar a | RGrp _ a => chars a c end.
Lemma par_chars r s g : par r s g -> forall c, In c s -> chars r c = true.
Proof.
  induction 1 as [| f c H | a b s t g h _ IH1 _ IH2 | a b s g _ IH | a b s g _ IH | a | a s t g h N _ IH1 _ IH2 | n a s g _ IH]; intros k I; cbn [chars].
  - destruct I.
  - destruct I as [<-|[]]. exact H.
  - apply in_app_or in I. destruct I as [I|I]; [rewrite (IH1 _ I)|rewrite (IH2 _ I), orb_true_r]; reflexivity.
  - rewrite (IH _ I). reflexivity.
  - rewrite (IH _ I). apply orb_true_r.
  - destruct I.
  - apply in_app_or in I. destruct I as [I|I]; [exact (IH1 _ I)|exact (IH2 _ I)].
  - auto.
Qed.

(* ---- the shapes ---- *)
Definition digs (s : pystr) : Prop := s <> [] /\ Forall (fun c => 48 <= c <= 57) s.
Lemma par_rc k s g : par (rc k) s g <-> s = [k] /\ g = [].
Proof. split; [intros P; inversion P; subst; apply Z.eqb_eq in H0; subst; auto|]. intros [-> ->]. constructor. apply Z.eqb_refl. Qed.
Lemma par_RChr f s g : par (RChr f) s g <-> exists c, s = [c] /\ f c = true /\ g = [].
Proof. split; [intros P; inversion P; subst; eauto|]. intros (c & -> & H & ->). constructor. exact H. Qed.
Lemma par_RSeq a b s g : par (RSeq a b) s g <-> exists t u h k, s = t ++ u /\ g = h ++ k /\ par a t h /\ par b u k.
Proof. split; [intros P; inversion P; subst; do 4 eexists; eauto|]. intros (t & u & h & k & -> & -> & A & B). constructor; auto. Qed.
Lemma par_RAlt a b s g : par (RAlt a b) s g <-> par a s g \/ par b s g.
Proof. split; [intros P; inversion P; subst; auto|]. intros [P|P]; [apply par_l|apply par_r]; exact P. Qed.
Lemma par_REps s g : par REps s g <-> s = [] /\ g = [].
Proof. split; [intros P; inversion P; auto|]. intros [-> ->]. constructor. Qed.
Lemma par_RGrp n a s g : par (RGrp n a) s g <-> exists h, g = h ++ [(n, s)] /\ par a s h.
Proof. split; [intros P; inversion P; subst; eauto|]. intros (h & -> & P). constructor. exact P. Qed.
Lemma par_star_chr f s g : par (RStar (RChr f)) s g <-> Forall (fun c => f c = true) s /\ g = [].
Proof.
  split.
  - intros P. remember (RStar (RChr f)) as q eqn:Q. induction P as [| | | | | a | a s t g h N P1 _ P2 IH |]; try discriminate; injection Q as ->.
    + auto.
    + destruct (IH eq_refl) as [F ->]. apply par_RChr in P1. destruct P1 as (c & -> & H & ->). split; [constructor; [exact H|exact F]|reflexivity].
  - intros [F ->]. induction F as [|c s H F IH]; [constructor|]. change (c :: s) with ([c] ++ s). change (@nil (nat * pystr)) with (@nil (nat * pystr) ++ []).
    apply par_more; [discriminate|constructor; exact H|exact IH].
Qed.
Lemma par_plus_chr f s g : par (rplus (RChr f)) s g <-> s <> [] /\ Forall (fun c => f c = true) s /\ g = [].
Proof.
  unfold rplus. rewrite par_RSeq. split.
  - intros (t & u & h & k & -> & -> & A & B). apply par_RChr in A. destruct A as (c & -> & H & ->). apply par_star_chr in B. destruct B as [F ->].
    repeat split; [discriminate|constructor; auto].
  - intros (N & F & ->). destruct F as [|c s H F]; [congruence|]. exists [c], s, [], []. repeat split; [constructor; exact H|apply par_star_chr; auto].
Qed.
Lemma par_rnum s g : par rnum s g <-> digs s /\ g = [].
Proof.
  unfold rnum, digs. rewrite par_plus_chr. rewrite !Forall_forall. split.
  - intros (N & F & ->). repeat split; auto; apply digit_range, F, H.
  - intros ((N & F) & ->). repeat split; auto. intros c I. apply digit_range, F, I.
Qed.
Lemma par_rnum_grp n s g : par (RGrp n rnum) s g <-> digs s /\ g = [(n, s)].
Proof. rewrite par_RGrp. split; [intros (h & -> & P); apply par_rnum in P; destruct P as [D ->]; auto|]. intros (D & ->). exists []. split; [reflexivity|]. apply par_rnum. auto. Qed.
Lemma par_rlit t s g : par (rlit t) s g <-> s = t /\ g = [].
Proof.
  revert s g. induction t as [|c t IH]; intros s g; cbn [rlit].
  - apply par_REps.
  - destruct t as [|d t]; [apply par_rc|]. rewrite par_RSeq. split.
    + intros (u & v & h & k & -> & -> & A & B). apply par_rc in A. destruct A as [-> ->]. apply IH in B. destruct B as [-> ->]. auto.
    + intros [-> ->]. exists [c], (d :: t), [], []. repeat split; [apply par_rc; auto|apply IH; auto].
Qed.
(* <expr> without groups *)
Fixpoint plain (r : re) : bool :=
  match r with REps | RChr _ => true | RSeq a b | RAlt a b => plain a && plain b | RStar a => plain a | RGrp _ _ => false end.
Lemma par_plain r s g : par r s g -> plain r = true -> g = [].
Proof.
  induction 1 as [| f c H | a b s t g h _ IH1 _ IH2 | a b s g _ IH | a b s g _ IH | a | a s t g h N _ IH1 _ IH2 | n a s g _ IH]; intros E; cbn [plain] in E; try reflexivity.
  - apply andb_prop in E. destruct E. rewrite IH1, IH2; auto.
  - apply andb_prop in E. destruct E. auto.
  - apply andb_prop in E. destruct E. auto.
  - rewrite IH1, IH2; auto.
  - discriminate.
Qed.
Lemma par_grp_plain n r s g : plain r = true -> (par (RGrp n r) s g <-> par r s [] /\ g = [(n, s)]).
Proof.
  intros Q. rewrite par_RGrp. split.
  - intros (h & -> & P). assert (h = []) as -> by exact (par_plain _ _ _ P Q). auto.
  - intros (P & ->). exists []. auto.
Qed.
