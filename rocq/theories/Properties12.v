(* C46: Invariants(n, options) and its cache. *)
From Coq Require Import Ascii String.
From Coq Require Import List ZArith Bool Lia Permutation.
From Verif Require Import Base Str Gen GenSpec GenThm2 GenThm3 Cache CacheSpec CacheThm Properties11.
Import ListNotations.
Open Scope Z_scope.

Definition uncached_opts : options := Opts true false true true true.
Definition plain_opts : options := Opts false true true true true.      (* no_hard_coded_ones=True *)
Definition wide_opts : options := Opts false false true true false.     (* FurtherRestrict4Brackets=False *)
Definition call6 (o : options) (stop : option nat) : call := Call 6 o env0 stop.
Lemma touch6 o stop : o_no_cached o = false -> o_r3 o = true -> o_r4 o = true -> touches 6 (call6 o stop).
Proof. unfold touches. auto. Qed.
Lemma first6 c h : touches 6 c -> first_touch 6 (c :: h) c.
Proof. intros T. exists [], h. split; [reflexivity|]. split; [exact T|]. intros c' []. Qed.
Lemma completed6 : completed (call6 default_options None) inv6. Proof. split; [reflexivity|exact inv6_ok]. Qed.

(* without the cache (no_cached, or one of the restrictions switched off) the history does
   not matter, and later constructions do not see this one *)
Theorem C46_uncached_partial :
  forall (h : list call) (c : call), ~ touches (c_n c) c -> c_stop c = None ->
  after_history h c = Done (from_scratch (c_env c) (c_n c) (c_opts c)) /\ forall c', after_history (h ++ [c]) c' = after_history h c'.
Proof. exact uncached. Qed.
Print Assumptions C46_uncached_partial.
Example C46_uncached_ex : ~ touches 6 (call6 uncached_opts None) /\ after_history [call6 wide_opts None] (call6 uncached_opts None) = Done (Ok inv6).
Proof.
  assert (N : ~ touches 6 (call6 uncached_opts None)) by (intros (_ & H & _); discriminate H). split; [exact N|].
  destruct (uncached [call6 wide_opts None] (call6 uncached_opts None) N eq_refl) as [-> _]. exact (f_equal Done inv6_ok).
Qed.
(* with the cache everything is decided by the first construction that used the file: nothing
   before it, its own generation is returned *)
Theorem C46_first :
  forall (h : list call) (c : call), touches (c_n c) c -> c_stop c = None -> (forall c', In c' h -> ~ touches (c_n c) c') ->
  after_history h c = Done (from_scratch (c_env c) (c_n c) (c_opts c)).
Proof. exact first_time. Qed.
Print Assumptions C46_first.
Example C46_first_ex : touches 6 (call6 default_options None) /\ (forall c', In c' [call6 uncached_opts None; Call 5 wide_opts env0 None] -> ~ touches 6 c') /\
  after_history [call6 uncached_opts None; Call 5 wide_opts env0 None] (call6 default_options None) = Done (Ok inv6).
Proof.
  assert (T : touches 6 (call6 default_options None)) by (apply touch6; reflexivity). split; [exact T|].
  assert (H : forall c', In c' [call6 uncached_opts None; Call 5 wide_opts env0 None] -> ~ touches 6 c').
  { intros c' [<-|[<-|[]]] (A & B & _); [discriminate B|discriminate A]. }
  split; [exact H|]. rewrite first_time; [exact (f_equal Done inv6_ok)|exact T|reflexivity|exact H].
Qed.
(* if that one ran to the end, all later ones return its lists, whatever their options,
   set orders and numerical tests *)
Theorem C46_afterwards :
  forall (h : list call) (c0 : call) (i : invs) (c : call),
  touches (c_n c) c -> first_touch (c_n c) h c0 -> completed c0 i -> after_history h c = Done (Ok i).
Proof. exact afterwards. Qed.
Print Assumptions C46_afterwards.
Example C46_afterwards_ex : after_history [call6 default_options None; call6 wide_opts None] (call6 plain_opts None) = Done (Ok inv6).
Proof.
  apply (afterwards _ (call6 default_options None)); [apply touch6; reflexivity| |exact completed6]. apply first6, touch6; reflexivity.
Qed.
(* if it raised, or was killed before the ninth key, all later ones raise, for ever *)
Theorem C46_poisoned :
  forall (h : list call) (c0 c : call), touches (c_n c) c -> first_touch (c_n c) h c0 ->
  (c_stop c0 = None -> exists e, from_scratch (c_env c0) (c_n c0) (c_opts c0) = Err e) -> (forall k, c_stop c0 = Some k -> (k < 9)%nat) ->
  after_history h c = Done (Err OtherException).
Proof. exact poisoned. Qed.
Print Assumptions C46_poisoned.
Lemma wide6 : from_scratch env0 6 wide_opts = Err TypeError. Proof. vm_compute. reflexivity. Qed.
Example C46_poisoned_ex : from_scratch env0 6 wide_opts = Err TypeError /\
  after_history [call6 wide_opts None; call6 default_options None] (call6 default_options None) = Done (Err OtherException) /\
  after_history [call6 default_options (Some 4%nat); call6 default_options None] (call6 default_options None) = Done (Err OtherException).
Proof.
  split; [exact wide6|]. split.
  - apply (poisoned _ (call6 wide_opts None)); [apply touch6; reflexivity|apply first6, touch6; reflexivity|intros _; exists TypeError; exact wide6|discriminate].
  - apply (poisoned _ (call6 default_options (Some 4%nat))); [apply touch6; reflexivity|apply first6, touch6; reflexivity|discriminate|]. intros k E. injection E as <-. lia.
Qed.
(* the promise holds for histories whose constructions for n that use the cache are all of the
   same options, complete and with the same lists *)
Theorem C46_same_calls_partial :
  forall (n : Z) (o : options) (i : invs) (h : list call) (c : call),
  c_n c = n -> c_opts c = o -> c_stop c = None -> from_scratch (c_env c) n o = Ok i ->
  (forall c', In c' h -> touches n c' -> c_opts c' = o /\ completed c' i) -> after_history h c = Done (Ok i).
Proof. exact same_calls. Qed.
Print Assumptions C46_same_calls_partial.
Example C46_same_calls_ex : after_history [call6 default_options None; call6 uncached_opts (Some 0%nat); call6 default_options None] (call6 default_options None) = Done (Ok inv6).
Proof.
  apply (same_calls 6 default_options inv6); [reflexivity|reflexivity|reflexivity|exact inv6_ok|]. intros c' H T. destruct H as [<-|[<-|[<-|[]]]]; [|destruct T as (_ & H & _); discriminate H|]; (split; [reflexivity|exact completed6]).
Qed.
(* for up to six legs the generation itself does not depend on the process, and does not raise
   if the numerical tests do not and the parts are restricted as by default *)
Theorem C46_small :
  forall (v v' : env) (n : Z) (o : options), n <= 6 -> reorders (e_ord v) -> reorders (e_ord v') -> (forall inv, e_test v inv = e_test v' inv) ->
  from_scratch v n o = from_scratch v' n o /\
  ((o_r4 o = true -> o_f4 o = true) -> (forall inv, exists b, e_test v inv = Ok b) -> exists i, from_scratch v n o = Ok i).
Proof. intros v v' n o N R R' T. split; [exact (small_orders v v' n o N R R' T)|exact (small_ok v n o N R)]. Qed.
Print Assumptions C46_small.
Definition slots (x : Z) : Z := (3 * x) mod 10.
Definition secret (rank : Z -> Z) : env := with_secret rank (fun l => l) (fun _ => Ok true).
Example C46_small_ex : reorders (e_ord (secret slots)) /\ e_ord (secret slots) (Brk true 1 [] 1) true [1; 2; 3; 4] = [4; 1; 2; 3] /\ from_scratch (secret slots) 6 default_options = Ok inv6.
Proof.
  assert (R := secret_reorders slots (fun l => l) (fun _ => Ok true)). split; [exact R|]. split; [reflexivity|]. rewrite <- inv6_ok. apply small_orders; auto; [lia|].
  intros b br l. reflexivity.
Qed.

(* ---- what is false ---- *)
(* the lists depend on the options of an earlier construction *)
Theorem C46_options_refuted :
  exists (h : list call) (c : call) (i i' : invs), c_stop c = None /\ after_history [] c = Done (Ok i) /\ after_history h c = Done (Ok i') /\ full i <> full i'.
Proof.
  set (i' := ok_or (from_scratch env0 6 plain_opts)). exists [call6 plain_opts None], (call6 default_options None), inv6, i'. split; [reflexivity|]. split; [|split].
  - rewrite first_time; [exact (f_equal Done inv6_ok)|apply touch6; reflexivity|reflexivity|intros c []].
  - apply (afterwards _ (call6 plain_opts None)); [apply touch6; reflexivity|apply first6, touch6; reflexivity|]. split; [reflexivity|]. apply ok_or_eq. vm_compute. reflexivity.
  - intros E. apply (f_equal (@length pystr)) in E. revert E. vm_compute. discriminate.
Qed.
Print Assumptions C46_options_refuted.
(* an exception of an earlier construction makes this one fail *)
Theorem C46_failure_refuted : ~ failures_stay_alone.
Proof.
  intros H. destruct (H [call6 wide_opts None] (call6 default_options None) inv6 eq_refl inv6_ok) as (i' & E).
  rewrite (poisoned _ (call6 wide_opts None)) in E; [discriminate|apply touch6; reflexivity|apply first6, touch6; reflexivity|intros _; exists TypeError; exact wide6|discriminate].
Qed.
Print Assumptions C46_failure_refuted.
(* so does a process killed while it wrote the file, after any number of keys below nine *)
Theorem C46_killed_refuted :
  forall k : nat, (k < 9)%nat -> exists (c0 c : call) (i : invs), c_stop c0 = Some k /\ c_opts c0 = c_opts c /\ completed c i /\
  forall h, after_history (c0 :: h) c = Done (Err OtherException).
Proof.
  intros k K. exists (call6 default_options (Some k)), (call6 default_options None), inv6. split; [reflexivity|]. split; [reflexivity|]. split; [exact completed6|]. intros h.
  apply (poisoned _ (call6 default_options (Some k))); [apply touch6; reflexivity|apply first6, touch6; reflexivity|discriminate|]. intros k' E. injection E as <-. exact K.
Qed.
Print Assumptions C46_killed_refuted.
(* seven legs, default options, no history: two processes that differ in the order of their
   sets only get different lists *)
Definition seven (rank : Z -> Z) : result invs := scratch_with (rmap (@concat brk) (rmapM (row_run (e_ord (secret rank)) 7) (zrange 1 8))) (secret rank) 7 default_options.
Lemma seven_eq rank : from_scratch (secret rank) 7 default_options = seven rank.
Proof. rewrite scratch_eq, gen_4_rows. reflexivity. Qed.
Definition lost7 : pystr := 10216 :: lit "4|(2+3)|(5+6)|4" ++ [10217].
Definition has (t : pystr) (l : list pystr) : bool := existsb (zlist_eqb t) l.
Lemma has_In t l : has t l = true <-> In t l.
Proof. unfold has. rewrite existsb_exists. split; [intros (x & H & E); destruct (zlist_eqb_spec t x); [subst; exact H|discriminate]|intros H; exists t; split; [exact H|destruct (zlist_eqb_spec t t); congruence]]. Qed.
Lemma pick (r r' : result invs) (t : pystr) :
  match r with Ok i => negb (has t (full i)) | Err _ => false end = true -> match r' with Ok i => has t (full i) | Err _ => false end = true ->
  exists i i', r = Ok i /\ r' = Ok i' /\ ~ In t (full i) /\ In t (full i').
Proof.
  destruct r as [i|]; [|discriminate]. destruct r' as [i'|]; [|discriminate]. intros B B'. exists i, i'. rewrite <- !has_In. apply negb_true_iff in B. split; [reflexivity|]. split; [reflexivity|]. split; [congruence|exact B'].
Qed.
Lemma sevens : exists i i', seven (fun x => x) = Ok i /\ seven Z.opp = Ok i' /\ ~ In lost7 (full i) /\ In lost7 (full i').
Proof. apply pick; vm_compute; reflexivity. Qed.
Lemma touches_default n v : touches n (Call n default_options v None). Proof. unfold touches. auto. Qed.
Lemma no_history n v r : from_scratch v n default_options = r -> after_history [] (Call n default_options v None) = Done r.
Proof. intros <-. apply first_time; [apply touches_default|reflexivity|intros c []]. Qed.
Theorem C46_process_refuted :
  exists (rank rank' : Z -> Z) (i i' : invs) (t : pystr),
  (forall x y, rank x = rank y -> x = y) /\ (forall x y, rank' x = rank' y -> x = y) /\
  after_history [] (Call 7 default_options (secret rank) None) = Done (Ok i) /\ after_history [] (Call 7 default_options (secret rank') None) = Done (Ok i') /\
  ~ In t (full i) /\ In t (full i').
Proof.
  destruct sevens as (i & i' & E & E' & N & Y). exists (fun x => x), Z.opp, i, i', lost7. split; [auto|]. split; [intros x y H; lia|].
  split; [apply no_history; rewrite seven_eq; exact E|]. split; [apply no_history; rewrite seven_eq; exact E'|]. split; [exact N|exact Y].
Qed.
Print Assumptions C46_process_refuted.
(* eight legs, default options, no history: one process raises, the other one does not; and
   after the first one, all processes raise *)
Lemma third_raises (run : Z -> result (list brk)) (f : Z -> list brk -> list brk) l :
  match run 1 with Ok _ => true | Err _ => false end = true -> match run 2 with Ok _ => true | Err _ => false end = true -> match run 3 with Err ValueError => true | _ => false end = true ->
  rmap (@concat brk) (rmapM (fun i => rmap (f i) (run i)) (1 :: 2 :: 3 :: l)) = Err ValueError.
Proof.
  intros R1 R2 R3. cbn [rmapM]. destruct (run 1); [|discriminate]. destruct (run 2); [|discriminate]. destruct (run 3) as [|[]]; try discriminate. reflexivity.
Qed.
Lemma eight_raises : gen_4 (e_ord (secret (fun x => x))) 8 = Err ValueError.
Proof.
  rewrite gen_4_rows. change (zrange 1 (8 + 1)) with (1 :: 2 :: 3 :: [4; 5; 6; 7; 8]). unfold row_run.
  apply (third_raises (cell_run (e_ord (secret (fun x => x))) 8) (fun i G => before 8 i ++ G ++ GenThm3.after 8 i)); vm_compute; reflexivity.
Qed.
Theorem C46_eight_refuted :
  exists (rank rank' : Z -> Z) (i : invs), (forall x y, rank x = rank y -> x = y) /\ (forall x y, rank' x = rank' y -> x = y) /\
  after_history [] (Call 8 default_options (secret rank) None) = Done (Err ValueError) /\ after_history [] (Call 8 default_options (secret rank') None) = Done (Ok i) /\
  after_history [Call 8 default_options (secret rank) None] (Call 8 default_options (secret rank') None) = Done (Err OtherException).
Proof.
  assert (U : exists i, from_scratch (secret Z.opp) 8 default_options = Ok i) by (apply unsorted_ok; [discriminate|apply opp_unsorted|reflexivity]). destruct U as (i & U).
  assert (E : from_scratch (secret (fun x => x)) 8 default_options = Err ValueError).
  { rewrite scratch_eq, eight_raises. unfold scratch_with. destruct (gen_3_ok 8) as (l & -> & _). reflexivity. }
  exists (fun x => x), Z.opp, i. split; [auto|]. split; [intros x y H; lia|]. split; [apply no_history, E|]. split; [apply no_history, U|].
  apply (poisoned _ (Call 8 default_options (secret (fun x => x)) None)); [apply touches_default| |intros _; exists ValueError; exact E|discriminate].
  exists [], []. split; [reflexivity|]. split; [apply touches_default|intros c []].
Qed.
Print Assumptions C46_eight_refuted.
Theorem C46_refuted : ~ depends_on_arguments_only.
Proof.
  intros H. destruct C46_options_refuted as (h & c & i & i' & S & E & E' & N). apply N. rewrite (H [] h c c S S eq_refl eq_refl), E' in E. injection E as ->. reflexivity.
Qed.
Print Assumptions C46_refuted.
