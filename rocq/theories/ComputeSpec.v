(* Specification vocabulary for spinor strings. *)
From Coq Require Import List ZArith Bool InitialRing.
From Verif Require Import Base Fld Particle ParticleSpec Index Phase PhaseSpec Compute.
Import ListNotations.

(* P + Q and P - Q as entries of a chain *)
Definition eplus (e f : entry) : entry := (fst e, snd e ++ (true, fst f) :: snd f).
Definition eminus (e f : entry) : entry :=
  (fst e, snd e ++ (false, fst f) :: map (fun x => (negb (fst x), snd x)) (snd f)).
(* a single leg *)
Definition leg (k : Z) : entry := (k, []).
(* i1+i2+...: the entry that adds the legs of a non-empty list *)
Definition esum (i : Z) (l : list Z) : entry := (i, map (pair true) l).

(* the bracket that faces the other way: <a| ... -> ... |a> *)
Definition open_of (c : cbr) : obr := match c with CAng => OAng | CGt => OLt | CSq => OSq end.
Definition close_of (o : obr) : cbr := match o with OAng => CAng | OLt => CGt | OSq => CSq end.
(* angle <-> square *)
Definition swap_o (o : obr) : obr := match o with OAng => OSq | OSq => OAng | OLt => OLt end.
Definition swap_c (c : cbr) : cbr := match c with CAng => CSq | CSq => CAng | CGt => CGt end.
(* whether the row is <a|, i.e. the first matrix of the middle is a barred one *)
Definition oflag (o : obr) : bool := match o with OAng => true | _ => false end.

Section Spec.
Context {K : Fld}.
Open Scope fld_scope.

(* every particle's representations agree (C01) *)
Definition sound (s : ps K) : Prop := Forall (fun p => consistent p) s.
(* leg k exists, is massless and has spinors that multiply out to its momentum *)
Definition massless_leg (s : ps K) (k : Z) : Prop :=
  exists p, getitem s k = Ok p /\ reproduces p.

(* a chain <a|P|Q|...|d>, [a|P|...|d>, ...; without entries a two-bracket product *)
Definition bracket (s : ps K) (o : obr) (a : Z) (es : list entry) (d : Z) (c : cbr) : result K :=
  match es with
  | [] => match o, c with
          | OSq, CSq => c_S2 s a d
          | OSq, _ => Err SyntaxError | _, CSq => Err SyntaxError
          | _, _ => c_A2 s a d
          end
  | _ => c_chain s o a es d c
  end.
(* unicode brackets, and the closing one fits *)
Definition kind_ok (o : obr) (n : nat) (c : cbr) : Prop := o <> OLt /\ bracket_ok o n c = true.
(* the bracket that ends a chain opened by o after n entries *)
Definition end_of (o : obr) (n : nat) : cbr := if Nat.even n then close_of o else swap_c (close_of o).

(* the trace with gamma5 of four momenta: tr(P~ Q R~ S) - tr(P Q~ R S~) *)
Definition T5 (P Q R S : m2 K) : K :=
  mtr (mmul (mmul (mmul (adj P) Q) (adj R)) S) - mtr (mmul (mmul (mmul P (adj Q)) R) (adj S)).
(* a massless leg whose label is one digit *)
Definition tr5_leg (s : ps K) (k : Z) : Prop := (1 <= k <= 9)%Z /\ massless_leg s k.
(* <a|j>[j|b] *)
Definition prod_aj (s : ps K) (a b j : Z) : result K := rbind (c_A2 s a j) (fun x => rmap (fun y => x * y) (c_S2 s j b)).
(* one leg rescaled through the setters *)
Definition rescale (k : Z) (t : K) (r l : v2 K) : QM unit :=
  bind (on k (assign_r_sp_d (vscale t r))) (fun _ => on k (assign_l_sp_d (vscale (1 / t) l))).
(* a massless point given by its spinors *)
Definition from_spinors (l : list (v2 K * v2 K)) : ps K := map (fun x => new_spinors (fst x) (snd x)) l.
(* (-1)^(n+1) *)
Definition rev_sign (n : nat) (x : K) : K := if Nat.even n then - x else x.
End Spec.

(* the first entry of a, b, c, d written with one character, and whether
   moving it to the front is an even permutation *)
Definition sgn_rot (a b c d : entry) : option (Z * bool) :=
  if one_char a then Some (fst a, true) else if one_char b then Some (fst b, false)
  else if one_char c then Some (fst c, true) else if one_char d then Some (fst d, false) else None.

(* strings whose free spinor indices are all contracted; brackets are unicode *)
Definition closed (e : inv) : Prop :=
  match e with
  | ITr es => Nat.even (length es) = true
  | IChain o _ _ _ _ => o <> OLt
  | IAu _ | IAd _ | ISu _ | ISd _ | IOpenBegin _ _ _ | IOpenEnd _ _ _ | IDouble _ => False
  | _ => True
  end.

Section Transform.
Context {K : Fld}.
Open Scope fld_scope.

(* |p> -> w A |p>, [p| -> 1/w [p| B, p -> A p B: a Lorentz transformation and a
   little group rescaling *)
Record boost_leg (A B : m2 K) (w : K) (p p' : particle K) : Prop := {
  bl_r : r_d p' = option_map (fun v => vscale w (mv A v)) (r_d p);
  bl_l : l_d p' = option_map (fun v => vscale (1 / w) (vm v B)) (l_d p);
  bl_m : r2b p' = mmul (mmul A (r2b p)) B
}.
Record boosted (A B : m2 K) (w : Z -> K) (s s' : ps K) : Prop := {
  bo_s : sound s; bo_s' : sound s';
  bo_A : mdet A = 1; bo_B : mdet B = 1;
  bo_w : forall k, w k <> 0;
  bo_len : length s' = length s;
  bo_leg : forall k p p', getitem s k = Ok p -> getitem s' k = Ok p' -> boost_leg A B (w k) p p'
}.
(* the weight of a string: one factor for each free end of a chain *)
Definition end_wt (angle : bool) (w : K) : K := if angle then w else 1 / w.
Definition is_ang_o (o : obr) : bool := match o with OAng => true | _ => false end.
Definition is_ang_c (c : cbr) : bool := match c with CAng => true | _ => false end.
Definition weight (w : Z -> K) (e : inv) : K :=
  match e with
  | IA2 a b => w a * w b
  | IS2 a b => 1 / w a * (1 / w b)
  | IChain o a _ d c => end_wt (is_ang_o o) (w a) * end_wt (is_ang_c c) (w d)
  | _ => 1
  end.
End Transform.

(* renaming the legs of a string *)
Definition emap (f : Z -> Z) (e : entry) : entry := (f (fst e), map (fun x => (fst x, f (snd x))) (snd e)).
Definition relabel (f : Z -> Z) (e : inv) : inv :=
  match e with
  | ITr5 a b c d => ITr5 (emap f a) (emap f b) (emap f c) (emap f d)
  | ITr es => ITr (map (emap f) es)
  | IOm l => IOm (map f l) | IPi l => IPi (map f l)
  | IDelta cs => IDelta (map (map f) cs)
  | IDelta3 l => IDelta3 (map f l)
  | Id5 => Id5
  | IM i => IM (f i) | IS l => IS (map f l)
  | IA2 a b => IA2 (f a) (f b) | IAu a => IAu (f a) | IAd b => IAd (f b)
  | IS2 a b => IS2 (f a) (f b) | ISu a => ISu (f a) | ISd b => ISd (f b)
  | IChain o a es d c => IChain o (f a) (map (emap f) es) (f d) c
  | IOpenBegin es d c => IOpenBegin (map (emap f) es) (f d) c
  | IOpenEnd o a es => IOpenEnd o (f a) (map (emap f) es)
  | IDouble es => IDouble (map (emap f) es)
  end.
(* strings that name all their legs: Omega, Pi, the shorthand Delta_ijk and delta5
   mean arcs of adjacent legs and are not *)
Definition labelled (e : inv) : Prop :=
  match e with IOm _ | IPi _ | IDelta3 _ | Id5 => False | _ => True end.

(* brackets exchanged, order reversed *)
Definition flip_str (e : inv) : inv :=
  match e with
  | IA2 a b => IS2 b a | IS2 a b => IA2 b a
  | IChain o a es d c => IChain (swap_o (open_of c)) d (rev es) a (swap_c (close_of o))
  | e => e
  end.
(* the strings whose value flip_str describes *)
Definition flippable (e : inv) : Prop :=
  match e with
  | IA2 _ _ | IS2 _ _ | IOm _ | IPi _ | IDelta _ | IDelta3 _ | Id5 | IM _ | IS _ => True
  | IChain o _ es _ c => o <> OLt /\ c = end_of o (length es) /\ es <> []
  | _ => False
  end.
(* the same particle with another spin index *)
Definition with_spin {K : Fld} (x : option bool) (p : particle K) : particle K :=
  mkP (r_u p) (r_d p) (l_u p) (l_d p) (r2 p) (r2b p) (fm p) (fmd p) x.
(* both spinors or none, no spin index *)
Definition plain {K : Fld} (p : particle K) : Prop :=
  spin p = None /\ ((r_d p = None /\ l_d p = None) \/ (r_d p <> None /\ l_d p <> None)).

(* two number fields and a relation between their elements that respects the
   operations compute uses, e.g. "y is the residue of the p-integral number x" *)
Record ring_rel (K K' : Fld) (R : K -> K' -> Prop) : Prop := {
  rr_0 : R 0%fld 0%fld; rr_1 : R 1%fld 1%fld;
  rr_add : forall x y x' y', R x x' -> R y y' -> R (x + y)%fld (x' + y')%fld;
  rr_sub : forall x y x' y', R x x' -> R y y' -> R (x - y)%fld (x' - y')%fld;
  rr_mul : forall x y x' y', R x x' -> R y y' -> R (x * y)%fld (x' * y')%fld;
  rr_half : forall x x', R x x' -> R (x / 2)%fld (x' / 2)%fld
}.

(* elementwise relations *)
Section Rel.
Context {K K' : Fld} (R : K -> K' -> Prop).
Definition v2rel (u : v2 K) (u' : v2 K') : Prop := R (e0 u) (e0 u') /\ R (e1 u) (e1 u').
Definition m2rel (m : m2 K) (m' : m2 K') : Prop :=
  R (m00 m) (m00 m') /\ R (m01 m) (m01 m') /\ R (m10 m) (m10 m') /\ R (m11 m) (m11 m').
Definition orel {A B} (P : A -> B -> Prop) (o : option A) (o' : option B) : Prop :=
  match o, o' with Some a, Some b => P a b | None, None => True | _, _ => False end.
Record prel (p : particle K) (p' : particle K') : Prop := {
  prel_ru : orel v2rel (r_u p) (r_u p'); prel_rd : orel v2rel (r_d p) (r_d p');
  prel_lu : orel v2rel (l_u p) (l_u p'); prel_ld : orel v2rel (l_d p) (l_d p');
  prel_2 : m2rel (r2 p) (r2 p'); prel_2b : m2rel (r2b p) (r2b p')
}.
Definition vrel (v : val K) (v' : val K') : Prop :=
  match v, v' with
  | VS x, VS y => R x y
  | VRow u, VRow u' => v2rel u u' | VCol u, VCol u' => v2rel u u'
  | VMat m, VMat m' => m2rel m m'
  | _, _ => False
  end.
(* same exception, or related results *)
Definition rrel {A B} (P : A -> B -> Prop) (r : result A) (r' : result B) : Prop :=
  match r, r' with Ok a, Ok b => P a b | Err e, Err e' => e = e' | _, _ => False end.
End Rel.

(* the image of an integer in a field *)
Definition zf {K : Fld} (n : Z) : K := gen_phiZ (0 : K)%fld 1%fld fadd fmul fopp n.
(* numbers n/d of two fields with the same integers n, d, d invertible in both:
   reduction modulo p of p-integral rationals *)
Definition frac_rel (K K' : Fld) (x : K) (y : K') : Prop :=
  exists n d : Z, (zf d : K) <> 0%fld /\ (zf d : K') <> 0%fld /\ (x * zf d)%fld = zf n /\ (y * zf d)%fld = zf n.
