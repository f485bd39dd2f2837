(* The shapes of the expressions and the reading of the strings. *)
From Coq Require Import Ascii String.
From Coq Require Import List ZArith Bool Lia.
From Verif Require Import Base Fld Compute Symm Str GenSpec GenThm Parse ParseSpec ParseChars Regex RegexThm Text TextSpec TextThm.
Import ListNotations.
Open Scope Z_scope.

Ltac pinv := repeat match goal with
  | H : par (RGrp _ rnum) _ _ |- _ => apply par_rnum_grp in H; destruct H as [? ->]
  | H : par (rc _) _ _ |- _ => apply par_rc in H; destruct H as [-> ->]
  | H : par (RChr _) _ _ |- _ => apply par_RChr in H; destruct H as (? & -> & ? & ->)
  | H : par (rcls _) _ _ |- _ => apply par_RChr in H; destruct H as (? & -> & ? & ->)
  | H : par (rlit _) _ _ |- _ => apply par_rlit in H; destruct H as [-> ->]
  | H : par (ropt _) _ _ |- _ => apply par_RAlt in H; destruct H as [H|H]
  | H : par REps _ _ |- _ => apply par_REps in H; destruct H as [-> ->]
  | H : par (RSeq _ _) _ _ |- _ => apply par_RSeq in H; destruct H as (? & ? & ? & ? & -> & -> & ? & ?)
  end.
Ltac conjs := repeat match goal with |- _ /\ _ => split end.
Lemma seq0 a b s t : par a s [] -> par b t [] -> par (RSeq a b) (s ++ t) [].
Proof. intros A B. change (@nil (nat * pystr)) with (@nil (nat * pystr) ++ []). constructor; auto. Qed.
Lemma seqg a b s t g h : par a s g -> par b t h -> par (RSeq a b) (s ++ t) (g ++ h).
Proof. intros. constructor; auto. Qed.
Lemma seqc a b c t h : par a [c] [] -> par b t h -> par (RSeq a b) (c :: t) h.
Proof. intros A B. change (c :: t) with ([c] ++ t). change h with ([] ++ h). constructor; auto. Qed.
Lemma chr f c : f c = true -> par (RChr f) [c] []. Proof. constructor; auto. Qed.
Lemma rc1 c : par (rc c) [c] []. Proof. apply par_rc. auto. Qed.
Lemma num_grp n a : digs a -> par (RGrp n rnum) a [(n, a)]. Proof. intros. apply par_rnum_grp. auto. Qed.
Lemma rnum1 a : digs a -> par rnum a []. Proof. intros. apply par_rnum. auto. Qed.
Lemma opt0 a : par (ropt a) [] []. Proof. apply par_r. constructor. Qed.
Lemma opt1 a s : par a s [] -> par (ropt a) s []. Proof. apply par_l. Qed.

Lemma shape_one f1 f2 s g : par (RSeq (RChr f1) (RSeq (RGrp 1 rnum) (RChr f2))) s g <->
  exists o a c, s = o :: a ++ [c] /\ f1 o = true /\ f2 c = true /\ digs a /\ g = [(1%nat, a)].
Proof.
  split.
  - intros P. pinv. do 3 eexists. conjs; first [reflexivity|eauto].
  - intros (o & a & c & -> & A & B & D & ->). apply seqc; [apply chr, A|]. change [(1%nat, a)] with ([(1%nat, a)] ++ []). apply seqg; [apply num_grp, D|apply chr, B].
Qed.
Lemma shape_two f1 f2 s g : par (RSeq (RChr f1) (RSeq (RGrp 1 rnum) (RSeq (rc c_bar) (RSeq (RGrp 2 rnum) (RChr f2))))) s g <->
  exists o a b c, s = o :: a ++ 124 :: b ++ [c] /\ f1 o = true /\ f2 c = true /\ digs a /\ digs b /\ g = [(1%nat, a); (2%nat, b)].
Proof.
  split.
  - intros P. pinv. do 4 eexists. conjs; first [reflexivity|eauto].
  - intros (o & a & b & c & -> & A & B & D & D' & ->). apply seqc; [apply chr, A|].
    change [(1%nat, a); (2%nat, b)] with ([(1%nat, a)] ++ [(2%nat, b)] ++ []). apply seqg; [apply num_grp, D|].
    apply seqc; [apply rc1|]. apply seqg; [apply num_grp, D'|apply chr, B].
Qed.
Lemma nb_plain : plain nb_mid = true. Proof. reflexivity. Qed.
Lemma open_plain : plain open_mid = true. Proof. reflexivity. Qed.
Lemma shape_NB s g : par pNB s g <->
  exists o a m d c, s = o :: a ++ 124 :: m ++ 124 :: d ++ [c] /\ In o [c_lt; c_la; c_ls] /\ In c [c_ra; c_rs; c_gt] /\ digs a /\ digs d /\ par nb_mid m [] /\
    g = [(1%nat, a); (2%nat, m); (3%nat, d)].
Proof.
  unfold pNB. split.
  - intros P. pinv. match goal with H : par (RGrp 2 nb_mid) _ _ |- _ => apply (par_grp_plain _ _ _ _ nb_plain) in H; destruct H as [? ->] end.
    do 5 eexists. repeat match goal with H : existsb _ _ = true |- _ => apply existsb_exists in H; destruct H as (? & ? & ?) end.
    repeat match goal with H : Z.eqb _ _ = true |- _ => apply Z.eqb_eq in H; subst end. conjs; first [reflexivity|eauto].
  - intros (o & a & m & d & c & -> & O & C & A & D & N & ->). apply seqc; [apply chr; apply existsb_exists; exists o; split; [exact O|apply Z.eqb_refl]|].
    change [(1%nat, a); (2%nat, m); (3%nat, d)] with ([(1%nat, a)] ++ [(2%nat, m)] ++ [(3%nat, d)] ++ []). apply seqg; [apply num_grp, A|]. apply seqc; [apply rc1|].
    apply seqg; [apply (par_grp_plain _ _ _ _ nb_plain); auto|]. apply seqc; [apply rc1|]. apply seqg; [apply num_grp, D|]. apply chr. apply existsb_exists. exists c. split; [exact C|apply Z.eqb_refl].
Qed.
Lemma shape_ob s g : par pNB_open_begin s g <->
  exists m d c, s = 124 :: m ++ 124 :: d ++ [c] /\ In c [c_ra; c_rs] /\ digs d /\ par open_mid m [] /\ g = [(2%nat, m); (3%nat, d)].
Proof.
  unfold pNB_open_begin. split.
  - intros P. pinv. match goal with H : par (RGrp 2 open_mid) _ _ |- _ => apply (par_grp_plain _ _ _ _ open_plain) in H; destruct H as [? ->] end.
    do 3 eexists. repeat match goal with H : existsb _ _ = true |- _ => apply existsb_exists in H; destruct H as (? & ? & ?) end.
    repeat match goal with H : Z.eqb _ _ = true |- _ => apply Z.eqb_eq in H; subst end. conjs; first [reflexivity|eauto].
  - intros (m & d & c & -> & C & D & N & ->). apply seqc; [apply rc1|].
    change [(2%nat, m); (3%nat, d)] with ([(2%nat, m)] ++ [(3%nat, d)] ++ []).
    apply seqg; [apply (par_grp_plain _ _ _ _ open_plain); auto|]. apply seqc; [apply rc1|]. apply seqg; [apply num_grp, D|]. apply chr. apply existsb_exists. exists c. split; [exact C|apply Z.eqb_refl].
Qed.
Lemma shape_oe s g : par pNB_open_end s g <->
  exists o a m, s = o :: a ++ 124 :: m ++ [124] /\ In o [c_la; c_ls] /\ digs a /\ par open_mid m [] /\ g = [(1%nat, a); (2%nat, m)].
Proof.
  unfold pNB_open_end. split.
  - intros P. pinv. match goal with H : par (RGrp 2 open_mid) _ _ |- _ => apply (par_grp_plain _ _ _ _ open_plain) in H; destruct H as [? ->] end.
    do 3 eexists. repeat match goal with H : existsb _ _ = true |- _ => apply existsb_exists in H; destruct H as (? & ? & ?) end.
    repeat match goal with H : Z.eqb _ _ = true |- _ => apply Z.eqb_eq in H; subst end. conjs; first [reflexivity|eauto].
  - intros (o & a & m & -> & C & D & N & ->). apply seqc; [apply chr; apply existsb_exists; exists o; split; [exact C|apply Z.eqb_refl]|].
    change [(1%nat, a); (2%nat, m)] with ([(1%nat, a)] ++ [(2%nat, m)] ++ []).
    apply seqg; [apply num_grp, D|]. apply seqc; [apply rc1|]. apply seqg; [apply (par_grp_plain _ _ _ _ open_plain); auto|apply rc1].
Qed.
Lemma shape_do s g : par pNB_double_open s g <-> exists m, s = 124 :: m ++ [124] /\ par open_mid m [] /\ g = [(2%nat, m)].
Proof.
  unfold pNB_double_open. split.
  - intros P. pinv. match goal with H : par (RGrp 2 open_mid) _ _ |- _ => apply (par_grp_plain _ _ _ _ open_plain) in H; destruct H as [? ->] end.
    eexists. conjs; first [reflexivity|eauto].
  - intros (m & -> & N & ->). apply seqc; [apply rc1|]. change [(2%nat, m)] with ([(2%nat, m)] ++ []). apply seqg; [apply (par_grp_plain _ _ _ _ open_plain); auto|apply rc1].
Qed.
Lemma shape_pre t s g : par (RSeq (rlit t) (RGrp 1 rnum)) s g <-> exists d, s = t ++ d /\ digs d /\ g = [(1%nat, d)].
Proof.
  split.
  - intros P. pinv. eauto.
  - intros (d & -> & D & ->). change [(1%nat, d)] with ([] ++ [(1%nat, d)]). apply seqg; [apply par_rlit; auto|apply num_grp, D].
Qed.
Lemma shape_tr5 s g : par ptr5 s g <-> (exists d, s = lit "tr5_" ++ d /\ digs d /\ g = [(1%nat, d)]) \/
  (exists m, s = lit "tr5(" ++ m ++ [41] /\ m <> [] /\ Forall (fun c => is_mid c = true) m /\ g = [(2%nat, m)]).
Proof.
  unfold ptr5. rewrite par_RAlt, shape_pre. apply or_iff_compat_l. split.
  - intros P. pinv. match goal with H : par (RGrp 2 _) _ _ |- _ => apply par_grp_plain in H; [|reflexivity]; destruct H as [H ->]; apply par_plus_chr in H; destruct H as (? & ? & _) end.
    eexists. conjs; first [reflexivity|eauto].
  - intros (m & -> & N & F & ->). change [(2%nat, m)] with ([] ++ [(2%nat, m)] ++ []). apply seqg; [apply par_rlit; auto|]. apply seqg; [|apply rc1].
    apply par_grp_plain; [reflexivity|]. split; auto. apply par_plus_chr. auto.
Qed.
Definition tr_mid : re := RStar (RAlt (RSeq (rc c_lp) (RSeq (rplus (RChr is_mid)) (rc c_rp))) (rplus (RChr is_mid))).
Lemma shape_tr s g : par ptr s g <-> exists m, s = lit "tr(" ++ m ++ [41] /\ par tr_mid m [] /\ g = [(2%nat, m)].
Proof.
  unfold ptr. fold tr_mid. split.
  - intros P. pinv. match goal with H : par (RGrp 2 _) _ _ |- _ => apply par_grp_plain in H; [|reflexivity]; destruct H as [H ->] end. eexists. conjs; first [reflexivity|eauto].
  - intros (m & -> & N & ->). change [(2%nat, m)] with ([] ++ [(2%nat, m)] ++ []). apply seqg; [apply par_rlit; auto|]. apply seqg; [|apply rc1].
    apply par_grp_plain; [reflexivity|]. auto.
Qed.
Definition d_mid : re := RSeq rnum (RStar (RSeq (rc c_bar) rnum)).
Lemma shape_D s g : par pDijk s g <-> exists m, s = [916; 95] ++ m /\ par d_mid m [] /\ g = [(1%nat, m)].
Proof.
  unfold pDijk. fold d_mid. split.
  - intros P. pinv. match goal with H : par (RGrp 1 _) _ _ |- _ => apply par_grp_plain in H; [|reflexivity]; destruct H as [H ->] end. eexists. conjs; first [reflexivity|eauto].
  - intros (m & -> & N & ->). change [(1%nat, m)] with ([] ++ [(1%nat, m)]). apply seqg; [apply par_rlit; auto|].
    apply par_grp_plain; [reflexivity|]. auto.
Qed.
Lemma shape_S s g : par pSijk s g <-> exists l u d, s = l :: u ++ d /\ In l [115; 83] /\ underscore u /\ digs d /\ g = [(1%nat, d)].
Proof.
  unfold pSijk, underscore. split.
  - intros P. pinv.
    all: match goal with H : existsb _ _ = true |- _ => apply existsb_exists in H; destruct H as (? & ? & H); apply Z.eqb_eq in H; subst end.
    all: [> eexists; exists [95]; eexists | eexists; exists []; eexists]; conjs; first [reflexivity|eauto].
  - intros (l & u & d & -> & L & U & D & ->). apply seqc; [apply chr; apply existsb_exists; exists l; split; [exact L|apply Z.eqb_refl]|].
    change [(1%nat, d)] with ([] ++ [(1%nat, d)]). apply seqg; [|apply num_grp, D]. destruct U as [-> | ->]; [apply opt1, rc1|apply opt0].
Qed.
Lemma shape_M s g : par pMi s g <-> exists l u d, s = l :: u ++ [d] /\ In l [109; 77] /\ underscore u /\ is_digit d = true /\ g = [(1%nat, [d])].
Proof.
  unfold pMi, underscore. split.
  - intros P. pinv.
    all: match goal with H : par (RGrp 1 _) _ _ |- _ => apply par_grp_plain in H; [|reflexivity]; destruct H as [H ->]; apply par_RChr in H; destruct H as (? & -> & ? & _) end.
    all: match goal with H : existsb _ _ = true |- _ => apply existsb_exists in H; destruct H as (? & ? & H); apply Z.eqb_eq in H; subst end.
    all: [> eexists; exists [95]; eexists | eexists; exists []; eexists]; conjs; first [reflexivity|eauto].
  - intros (l & u & d & -> & L & U & D & ->). apply seqc; [apply chr; apply existsb_exists; exists l; split; [exact L|apply Z.eqb_refl]|].
    change [(1%nat, [d])] with ([] ++ [(1%nat, [d])]). apply seqg; [destruct U as [-> | ->]; [apply opt1, rc1|apply opt0]|]. apply par_grp_plain; [reflexivity|]. split; auto. apply chr, D.
Qed.
