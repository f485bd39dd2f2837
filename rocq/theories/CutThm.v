(* The entries of a slice of an array. *)
From Coq Require Import List ZArith Lia.
From Verif Require Import Base Fld Parse Tensor CutSpec.
Import ListNotations.
Lemma skip_at {A} n : forall (l : list A) k, nth_error (skipn n l) k = nth_error l (n + k).
Proof. induction n as [|n IH]; intros [|x l] k; cbn; try reflexivity; [destruct k; reflexivity|apply IH]. Qed.
Lemma first_at {A} n : forall (l : list A) k x, nth_error (firstn n l) k = Some x <-> nth_error l k = Some x /\ (k < n)%nat.
Proof.
  induction n as [|n IH]; intros [|y l] [|k] x; cbn; try (split; [discriminate|intros [? ?]; try discriminate; lia]).
  - split; [intros ->; split; [reflexivity|lia]|intros [-> _]; reflexivity].
  - rewrite IH. split; intros [? ?]; (split; [assumption|lia]).
Qed.
Lemma cut_at {A} (b : bounds) (l : list A) k x : nth_error (cut b l) k = Some x <-> nth_error l (start (fst b) + k) = Some x /\ below (snd b) (start (fst b) + k).
Proof.
  unfold cut. destruct b as [lo hi]. cbn [fst snd]. fold (start lo). rewrite first_at, skip_at. destruct hi as [z|]; cbn [below].
  - split; intros [? ?]; (split; [assumption|lia]).
  - split; [tauto|]. intros [E _]. split; [exact E|]. assert (start lo + k < length l)%nat by (apply nth_error_Some; congruence). lia.
Qed.
Theorem slice_entries {K : Fld} (m : list (list (value K))) i j : exists m', subscript (XArr m) i j = Ok (XArr m') /\
  forall a b x, entry_at m' a b = Some x <-> entry_at m (start (fst i) + a) (start (fst j) + b) = Some x /\ below (snd i) (start (fst i) + a) /\ below (snd j) (start (fst j) + b).
Proof.
  eexists. split; [reflexivity|]. intros a b x. unfold entry_at. rewrite nth_error_map. destruct (nth_error (cut i m) a) as [r|] eqn:E; cbn [option_map].
  - apply cut_at in E as [E1 E2]. rewrite E1, cut_at. tauto.
  - split; [discriminate|]. destruct (nth_error m (start (fst i) + a)) as [r|] eqn:E1; [|intros [? _]; discriminate]. intros (_ & B & _). exfalso. rewrite (proj2 (cut_at i m a r) (conj E1 B)) in E. discriminate.
Qed.
(* ---- numpy.block of numbers ---- *)
Section Block.
Context {K : Fld}.
Lemma numbers_arr (r : list (value K)) : rmapM as_arr (map XNum r) = Ok (map (fun x => [[x]]) r).
Proof. induction r as [|x r IH]; [reflexivity|]. cbn [map rmapM]. rewrite IH. reflexivity. Qed.
Lemma side_by_side (r acc : list (value K)) : fold_left (fun (a : result (arr K)) n => rbind a (fun m => zipM (fun p q => Ok (p ++ q)) m n)) (map (fun x => [[x]]) r) (Ok [acc]) = Ok [acc ++ r].
Proof. revert acc. induction r as [|x r IH]; intros acc; [rewrite app_nil_r; reflexivity|]. cbn [map fold_left rbind]. cbn [zipM]. cbn [rbind rmap]. rewrite IH, <- app_assoc. reflexivity. Qed.
Lemma row_block (r : list (value K)) : r <> [] -> hcat (map (fun x => [[x]]) r) = Ok [r].
Proof. destruct r as [|x r]; [contradiction|]. intros _. cbn [map hcat]. apply (side_by_side r [x]). Qed.
Theorem number_block (m : list (list (value K))) w : m <> [] -> (0 < w)%nat -> (forall r, In r m -> length r = w) -> block (XList (map (fun r => XList (map XNum r)) m)) = Ok (XArr m).
Proof.
  intros N W H.
  assert (R : rmapM (fun x => match x with XList r => rbind (rmapM as_arr r) hcat | _ => Err ValueError end) (map (fun r : list (value K) => XList (map XNum r)) m) = Ok (map (fun r => [r]) m)).
  { clear N. induction m as [|r m IH]; [reflexivity|]. cbn [map rmapM]. rewrite numbers_arr. cbn [rbind]. rewrite row_block by (intros ->; specialize (H [] (or_introl eq_refl)); cbn in H; lia). rewrite IH by (intros q I; apply H; right; exact I). reflexivity. }
  destruct m as [|r m]; [contradiction|]. cbn [map] in *. unfold block. 
  change (rbind (rmapM (fun x => match x with XList r => rbind (rmapM as_arr r) hcat | _ => Err ValueError end) (XList (map XNum r) :: map (fun r : list (value K) => XList (map XNum r)) m)) (fun rows => rmap XArr (vcat rows)) = Ok (XArr (r :: m))).
  rewrite R. cbn [rbind vcat].
  assert (F : forallb (fun n : arr K => Nat.eqb (width n) (width [r])) (map (fun r => [r]) m) = true).
  { apply forallb_forall. intros n I. apply in_map_iff in I as (q & <- & I). apply Nat.eqb_eq. unfold width. cbn. rewrite (H q (or_intror I)), (H r (or_introl eq_refl)). reflexivity. }
  rewrite F. cbn [rmap]. do 2 f_equal. cbn [concat app]. f_equal. clear. induction m as [|q m IH]; [reflexivity|]. cbn. f_equal. exact IH.
Qed.
End Block.
