(* Expressions with arrays keep their values modulo a prime. *)
From Coq Require Import List ZArith Bool Lia QArith.
From Verif Require Import Base Fld Particle ParticleSpec Index Phase Compute Str Masses Parse Text Tensor Reduce ReduceSpec ReduceThm.
Import ListNotations.
Open Scope res_scope.

Lemma upto_rmapM {A B C D} (R : C -> D -> Prop) (g : A -> result C) (h : B -> result D) l l' (Q : A -> B -> Prop) :
  (forall a b, Q a b -> red_upto R (g a) (h b)) -> Forall2 Q l l' -> red_upto (Forall2 R) (rmapM g l) (rmapM h l').
Proof.
  intros F H. induction H as [|a b l l' Hab H IH]; cbn; [right; constructor|].
  destruct (F _ _ Hab) as [E|E]; [left; rewrite E; reflexivity|]. destruct (g a), (h b); cbn in E; try contradiction; [|right; exact E].
  destruct IH as [E'|E']; [left; rewrite E'; reflexivity|]. destruct (rmapM g l), (rmapM h l'); cbn in E'; try contradiction; right; cbn; auto.
Qed.
Lemma upto_zipM {A B C A' B' C'} (R : A -> A' -> Prop) (Q : B -> B' -> Prop) (S : C -> C' -> Prop) (g : A -> B -> result C) (h : A' -> B' -> result C') :
  (forall a a' b b', R a a' -> Q b b' -> red_upto S (g a b) (h a' b')) -> forall l l', Forall2 R l l' -> forall m m', Forall2 Q m m' -> red_upto (Forall2 S) (zipM g l m) (zipM h l' m').
Proof.
  intros F l l' H. induction H as [|a a' l l' Ha H IH]; intros m m' H'; destruct H' as [|b b' m m' Hb H']; cbn [zipM]; try (right; cbn; constructor; fail); try (right; cbn; reflexivity).
  eapply upto_bind; [apply F; eassumption|]. intros c c' Hc. eapply upto_bind; [apply IH, H'|]. intros r r' Hr. right. cbn. constructor; assumption.
Qed.
Lemma F2_repeat {A B} (R : A -> B -> Prop) a b n : R a b -> Forall2 R (repeat a n) (repeat b n). Proof. intros H. induction n; cbn; constructor; assumption. Qed.
Lemma F2_stretch {A B} (R : A -> B -> Prop) n l l' : Forall2 R l l' -> Forall2 R (stretch n l) (stretch n l').
Proof. intros H. destruct H as [|a b l l' Ha H]; [constructor|]. destruct H as [|c d l l' Hc H]; cbn; [apply F2_repeat, Ha|repeat (constructor; try assumption)]. Qed.
Lemma upto_casted {A B C A' B' C'} (R : A -> A' -> Prop) (Q : B -> B' -> Prop) (S : C -> C' -> Prop) (g : A -> B -> result C) (h : A' -> B' -> result C') :
  (forall a a' b b', R a a' -> Q b b' -> red_upto S (g a b) (h a' b')) -> forall l l' m m', Forall2 R l l' -> Forall2 Q m m' -> red_upto (Forall2 S) (casted g l m) (casted h l' m').
Proof. intros F l l' m m' H H'. unfold casted. rewrite (F2_len R l l' H), (F2_len Q m m' H'). eapply upto_zipM; [exact F|apply F2_stretch, H|apply F2_stretch, H']. Qed.
Lemma F2_firstn {A B} (R : A -> B -> Prop) n : forall l l', Forall2 R l l' -> Forall2 R (firstn n l) (firstn n l').
Proof. induction n as [|n IH]; intros l l' H; [constructor|]. destruct H; cbn; constructor; auto. Qed.
Lemma F2_skipn {A B} (R : A -> B -> Prop) n : forall l l', Forall2 R l l' -> Forall2 R (skipn n l) (skipn n l').
Proof. induction n as [|n IH]; intros l l' H; [exact H|]. destruct H; cbn; [constructor|auto]. Qed.
Lemma F2_nth {A B} (R : A -> B -> Prop) d d' l l' : R d d' -> Forall2 R l l' -> forall n, R (nth n l d) (nth n l' d').
Proof. intros D H. induction H; intros [|n]; cbn; auto. Qed.
Lemma F2_concat {A B} (R : A -> B -> Prop) l l' : Forall2 (Forall2 R) l l' -> Forall2 R (concat l) (concat l').
Proof. induction 1; cbn; [constructor|apply Forall2_app; assumption]. Qed.

Section Thm.
Context {K L : Fld}.
Variables (f : K -> result L) (P : place f).
Notation Rn := (red_num f).
Notation Ra := (Forall2 (Forall2 Rn)).
Notation Rw := (red_wide f).
Lemma r_entrywise g h v v' w w' : (forall a a' b b', Rn a a' -> Rn b b' -> red_upto Rn (g a b) (h a' b')) -> Rw v v' -> Rw w w' -> red_upto Rw (entrywise g v w) (entrywise h v' w').
Proof.
  intros F [a a' Ha | m m' Hm | l l' Hl] [b b' Hb | n n' Hn | k k' Hk]; cbn [entrywise]; try (right; cbn; reflexivity).
  - eapply upto_rmap; [apply F; eassumption|constructor; assumption].
  - eapply upto_rmap; [eapply upto_rmapM; [|exact Hn]; intros r r' Hr; eapply upto_rmapM; [|exact Hr]; intros x x' Hx; apply F; eassumption|constructor; assumption].
  - eapply upto_rmap; [eapply upto_rmapM; [|exact Hm]; intros r r' Hr; eapply upto_rmapM; [|exact Hr]; intros x x' Hx; apply F; eassumption|constructor; assumption].
  - eapply upto_rmap; [eapply upto_casted; [|exact Hm|exact Hn]; intros; eapply upto_casted; eassumption|constructor; assumption].
Qed.
Lemma r_row_col a a' b b' : Forall2 Rn a a' -> Forall2 Rn b b' -> red_upto Rn (row_col a b) (row_col a' b').
Proof.
  intros H H'. unfold row_col. eapply upto_bind; [eapply upto_zipM; [|exact H|exact H']; intros; apply (r_mul f P); assumption|]. intros l l' [|x x' m m' Hx Hm]; [right; cbn; reflexivity|].
  assert (G : forall m m', Forall2 Rn m m' -> forall x x', red_upto Rn x x' -> red_upto Rn (fold_left (fun acc y => x <-? acc ;; v_add x y) m x) (fold_left (fun acc y => x <-? acc ;; v_add x y) m' x')).
  { clear - P. intros m m' Hm. induction Hm as [|y y' m m' Hy Hm IH]; intros x x' Hx; [exact Hx|]. cbn [fold_left]. apply IH. eapply upto_bind; [exact Hx|]. intros. apply (r_add f P); assumption. }
  apply G; [exact Hm|]. right. exact Hx.
Qed.
Lemma r_width m m' : Ra m m' -> width m = width m'. Proof. intros [|r r' l l' Hr Hl]; [reflexivity|]. cbn. eapply F2_len, Hr. Qed.
Lemma r_columns m m' : Ra m m' -> Ra (columns m) (columns m').
Proof.
  intros H. unfold columns. rewrite (r_width m m' H). induction (seq 0 (width m')) as [|j l IH]; cbn [map]; constructor; [|exact IH].
  eapply F2_map; [|exact H]. intros r r' Hr. apply F2_nth; [reflexivity|exact Hr].
Qed.
Lemma r_matmul v v' w w' : Rw v v' -> Rw w w' -> red_upto Rw (matmul v w) (matmul v' w').
Proof.
  intros [a a' Ha | m m' Hm | l l' Hl] [b b' Hb | n n' Hn | k k' Hk]; cbn [matmul]; try (right; cbn; reflexivity).
  rewrite (r_width m m' Hm), (F2_len _ n n' Hn). destruct (Nat.eqb _ _); [|right; cbn; reflexivity].
  eapply upto_rmap; [|intros; constructor; eassumption]. eapply upto_rmapM; [|exact Hm]. intros r r' Hr. eapply upto_rmapM; [|apply r_columns, Hn]. intros. apply r_row_col; assumption.
Qed.
Lemma r_as_arr v v' : Rw v v' -> red_upto Ra (as_arr v) (as_arr v').
Proof. intros [a a' Ha | m m' Hm | l l' Hl]; right; cbn; auto. Qed.
Lemma r_hcat l l' : Forall2 Ra l l' -> red_upto Ra (hcat l) (hcat l').
Proof.
  intros [|m m' k k' Hm Hk]; [right; cbn; reflexivity|]. cbn [hcat].
  assert (G : forall k k', Forall2 Ra k k' -> forall x x', red_upto Ra x x' -> red_upto Ra (fold_left (fun acc n => m <-? acc ;; zipM (fun r q => Ok (r ++ q)) m n) k x) (fold_left (fun acc n => m <-? acc ;; zipM (fun r q => Ok (r ++ q)) m n) k' x')).
  { clear. intros k k' Hk. induction Hk as [|n n' k k' Hn Hk IH]; intros x x' Hx; [exact Hx|]. cbn [fold_left]. apply IH. eapply upto_bind; [exact Hx|]. intros m m' Hm. eapply upto_zipM; [|exact Hm|exact Hn]. intros. right. cbn. apply Forall2_app; assumption. }
  apply G; [exact Hk|right; exact Hm].
Qed.
Lemma r_vcat l l' : Forall2 Ra l l' -> red_upto Ra (vcat l) (vcat l').
Proof.
  intros [|m m' k k' Hm Hk]; [right; cbn; reflexivity|]. unfold vcat. rewrite (r_width m m' Hm).
  assert (E : forallb (fun n => Nat.eqb (width n) (width m')) k = forallb (fun n => Nat.eqb (width n) (width m')) k') by (clear - Hk; induction Hk as [|n n' k k' Hn Hk IH]; cbn; [reflexivity|]; rewrite (r_width n n' Hn), IH; reflexivity).
  rewrite E. clear E. destruct (forallb _ _); right; [|cbn; reflexivity]. change (Ra (concat (m :: k)) (concat (m' :: k'))). apply F2_concat. constructor; assumption.
Qed.
Lemma r_row v v' : Rw v v' -> red_upto Ra (match v with XList r => a <-? rmapM as_arr r ;; hcat a | _ => Err ValueError end) (match v' with XList r => a <-? rmapM as_arr r ;; hcat a | _ => Err ValueError end).
Proof. intros [a a' Ha | m m' Hm | l l' Hl]; try (right; cbn; reflexivity). eapply upto_bind; [eapply upto_rmapM; [apply r_as_arr|exact Hl]|apply r_hcat]. Qed.
Lemma r_flat l l' : Forall2 Rw l l' -> red_upto Rw (a <-? rmapM as_arr l ;; rmap XArr (hcat a)) (a <-? rmapM as_arr l' ;; rmap XArr (hcat a)).
Proof. intros H. eapply upto_bind; [eapply upto_rmapM; [apply r_as_arr|exact H]|]. intros. eapply upto_rmap; [apply r_hcat; assumption|constructor; assumption]. Qed.
Lemma r_block v v' : Rw v v' -> red_upto Rw (block v) (block v').
Proof.
  intros [a a' Ha | m m' Hm | l l' Hl]; [right; constructor; assumption|right; constructor; assumption|]. pose proof Hl as H. destruct Hl as [|x x' l l' Hx Hl]; [exact (r_flat _ _ H)|].
  destruct Hx as [a a' Ha | m m' Hm | k k' Hk]; [exact (r_flat _ _ H)|exact (r_flat _ _ H)|]. unfold block. eapply upto_bind; [eapply upto_rmapM; [apply r_row|exact H]|]. intros. eapply upto_rmap; [apply r_vcat; assumption|constructor; assumption].
Qed.
Lemma r_transpose v v' : Rw v v' -> red_upto Rw (transpose v) (transpose v').
Proof. intros [a a' Ha | m m' Hm | l l' Hl]; right; cbn; try reflexivity; constructor; [assumption|apply r_columns, Hm]. Qed.
Lemma r_negate v v' : Rw v v' -> red_upto Rw (negate v) (negate v').
Proof. intros [a a' Ha | m m' Hm | l l' Hl]; right; cbn; try reflexivity; constructor; [apply (r_neg f P), Ha|]. eapply F2_map; [|exact Hm]. intros r r' Hr. eapply F2_map; [|exact Hr]. apply (r_neg f P). Qed.
Lemma r_cut {A B} (R : A -> B -> Prop) b l l' : Forall2 R l l' -> Forall2 R (cut b l) (cut b l').
Proof. intros H. unfold cut. rewrite (F2_len R l l' H). apply F2_firstn, F2_skipn, H. Qed.
Lemma r_subscript v v' i j : Rw v v' -> red_upto Rw (subscript v i j) (subscript v' i j).
Proof. intros [a a' Ha | m m' Hm | l l' Hl]; right; cbn; try reflexivity. constructor. eapply F2_map; [|apply r_cut, Hm]. intros r r' Hr. apply r_cut, Hr. Qed.
Lemma r_binop o v v' w w' : Rw v v' -> Rw w w' -> red_upto Rw (binop o v w) (binop o v' w').
Proof. intros H H'. destruct o; cbn [binop]; [..|apply r_matmul; assumption]; apply r_entrywise; try assumption; intros; [apply (r_add f P)|apply (r_sub f P)|apply (r_mul f P)|apply (r_div f P)|apply (r_pow f P)]; assumption. Qed.
Lemma r_weval o o' : (forall t, red_upto Rw (o t) (o' t)) -> forall a, red_upto Rw (weval o a) (weval o' a).
Proof.
  intros H. fix IH 1. intros [z|b x y|x|x|t|n d| |l|[|] x|x i j]; cbn [weval].
  - right. constructor. reflexivity.
  - eapply upto_bind; [apply IH|]. intros. eapply upto_bind; [apply IH|]. intros. apply r_binop; assumption.
  - eapply upto_bind; [apply IH|]. intros. apply r_negate; assumption.
  - apply IH.
  - apply H.
  - destruct (d =? 0)%Z; right; [reflexivity|]. constructor. reflexivity.
  - right. constructor. repeat constructor.
  - eapply upto_rmap with (R := Forall2 Rw); [|intros; constructor; assumption]. induction l as [|a l IHl]; [right; constructor|]. eapply upto_bind; [apply IH|]. intros x x' Hx. eapply upto_bind; [exact IHl|]. intros. right. constructor; assumption.
  - eapply upto_bind; [apply IH|]. intros. apply r_block; assumption.
  - eapply upto_bind; [apply IH|]. intros. apply r_transpose; assumption.
  - eapply upto_bind; [apply IH|]. intros. apply r_subscript; assumption.
Qed.
Lemma r_pop v v' : Rw v v' -> Rw (pop v) (pop v').
Proof.
  intros [a a' Ha | m m' Hm | l l' Hl]; cbn [pop]; try (constructor; assumption). destruct Hm as [|r r' m m' Hr Hm]; [constructor; constructor|]. destruct Hm as [|q q' m m' Hq Hm].
  - destruct Hr as [|x x' r r' Hx Hr]; [repeat constructor|]. destruct Hr as [|y y' r r' Hy Hr]; constructor; [exact Hx|]. repeat (constructor; try assumption).
  - destruct Hr as [|x x' r r' Hx Hr]; [constructor; repeat (constructor; try assumption)|]. destruct Hr as [|y y' r r' Hy Hr]; constructor; repeat (constructor; try assumption).
Qed.
Lemma r_of_val v w : red_val f v w -> Rw (of_val v) (of_val w).
Proof. destruct v, w; cbn; try contradiction; intros H; repeat constructor; cbn; try exact H; apply H. Qed.
Lemma wide_red s s' A B : Forall2 (Rp f) s s' -> red_masses f A B -> forall n t, red_upto Rw (compute_wide n s A t) (compute_wide n s' B t).
Proof.
  intros H M. induction n as [|n IH]; intros t; cbn [compute_wide]; [right; cbn; reflexivity|].
  destruct (unbold t) as [t'|e]; cbn [rbind]; [|right; cbn; reflexivity].
  destruct (classify t') as [e|x| |].
  - right. eapply red_rmap; [apply (compute_red f P), H|apply r_of_val].
  - right; cbn; reflexivity.
  - pose proof (r_dict f A B t' M) as D. destruct (dict_get t' A) as [[x|u]|], (dict_get t' B) as [[y|w]|]; cbn in D; try contradiction.
    + right. constructor. exact D.
    + subst. apply IH.
    + right; cbn; reflexivity.
  - unfold weval_text. destruct (wast_parse (py_parse t)) as [a|e]; cbn [rbind]; [|right; cbn; reflexivity]. eapply upto_rmap; [apply r_weval, IH|apply r_pop].
Qed.
Lemma all_wide s s' A B n t : Forall (fun p => reproduces p) s -> convert_all f s = Ok s' -> red_masses f A B -> red_upto Rw (compute_wide n s A t) (compute_wide n s' B t).
Proof. intros R H M. apply wide_red; [apply all_Rp; assumption|exact M]. Qed.
End Thm.
