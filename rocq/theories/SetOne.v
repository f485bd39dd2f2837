(* Model of lips/hardcoded_limits/particles_set.py: setting one invariant.  As in
   Compute.v the strings are already split into their parts; the label of a leg is one
   digit (_set_NB takes its strings apart character by character). *)
From Coq Require Import List ZArith Bool.
From Verif Require Import Base Fld Particle Index Phase Arcs Compute Cluster Tr5.
Import ListNotations.

(* the strings _set_inner (particles_set.py:37-75) understands: those of compute and
   '(<a|b|c+d|e|a]-<b|f|c+d|e|b])' *)
Inductive target := TInv (e : inv) | T5B (a b c d e f : Z).

(* the entry (i+j+...) of a chain; () for an empty list, which is no entry: leg 0 *)
Definition ent (l : list Z) : entry := match l with [] => (0%Z, []) | i :: l' => (i, map (pair true) l') end.
(* the labels added in an entry; int('3-4') is a ValueError (particles.py:447-448) *)
Definition labels (e : entry) : result (list Z) :=
  if forallb fst (snd e) then Ok (fst e :: map snd (snd e)) else Err ValueError.

(* particles_set.py:182-185: what the bracket at the end of the string becomes at the beginning *)
Definition facing_o (c : cbr) : obr := match c with CAng => OAng | CGt => OLt | CSq => OSq end.
(* particles_set.py:182-185 *)
Definition facing_c (o : obr) : cbr := match o with OAng => CAng | OLt => CGt | OSq => CSq end.
Definition other_o (o : obr) : obr := match o with OAng => OSq | OSq => OAng | OLt => OLt end.

(* particles_set.py:139-154: Some false is unique_head_or_tail = 0, Some true is 1, None is [].
   With an odd number of entries head and tail are not compared with each other. *)
Definition head_or_tail (a : Z) (ms : list (list Z)) (d : Z) : option bool :=
  let free x := negb (zmem x (concat ms)) && (Nat.odd (length ms) || negb (Z.eqb a d)) in
  if free a then Some false else if free d then Some true else None.

(* particles_set.py:159-167: the first entry of l that is not in [others], and its position *)
Fixpoint find_unique (others l : list Z) (j : nat) : option (Z * nat) :=
  match l with
  | [] => None
  | x :: l' => if zmem x others then find_unique others l' (S j) else Some (x, j)
  end.
(* particles_set.py:156-169: (label, position, bracket), the bracket is the first or the last *)
Definition unique_middle (a : Z) (ms : list (list Z)) (d : Z) : option (Z * nat * nat) :=
  match find_unique (a :: concat (tl ms) ++ [d]) (hd [] ms) 0 with
  | Some (b, j) => Some (b, j, 0%nat)
  | None => match find_unique (a :: concat (removelast ms) ++ [d]) (last ms []) 0 with
            | Some (b, j) => Some (b, j, (length ms - 1)%nat)
            | None => None
            end
  end.

Definition set_nth {A} (i : nat) (x : A) (l : list A) : list A := firstn i l ++ x :: skipn (S i) l.
(* particles_set.py:226-227: the j-th label changes place with the first *)
Definition swap_front (j : nat) (l : list Z) : list Z :=
  match j with
  | O => l
  | S _ => match l with
           | [] => []
           | y :: _ => nth j l 0%Z :: set_nth (j - 1) y (tl l)
           end
  end.

(* particles_set.py:118-137: the first i for which rewriting the i-th entry by momentum
   conservation leaves two free legs *)
Fixpoint try_flips (so : list Z -> list Z) (n : nat) (a : Z) (ms : list (list Z)) (d : Z) (is : list nat) : result (option (list (list Z))) :=
  match is with
  | [] => Ok None
  | i :: is' =>
      let m := nth i ms [] in
      rbind (complementary so n (if Nat.eqb i 0 then m ++ [a] else if Nat.eqb i (length ms - 1) then m ++ [d] else m)) (fun alt =>
      let ms' := set_nth i alt ms in
      rbind (complementary so n (a :: concat ms' ++ [d])) (fun plist =>
      if Nat.leb 2 (length plist) then Ok (Some ms') else try_flips so n a ms d is'))
  end.

(* python's list.pop(i); used in particles_set.py:323 *)
Definition py_pop (l : list Z) (i : Z) : result (Z * list Z) :=
  let k := if (i <? 0)%Z then (i + zlen l)%Z else i in
  if ((0 <=? k) && (k <? zlen l))%Z then
    Ok (nth (Z.to_nat k) l 0%Z, firstn (Z.to_nat k) l ++ skipn (S (Z.to_nat k)) l)
  else Err IndexError.

Section SetOne.
Context {K : Fld}.
Open Scope fld_scope.
Open Scope mon_scope.
Context (cv : convention) (so : list Z -> list Z).

(* self.fix_mom_cons(A, B, axis=axis).  Simplification: labels (0, 0), for which two
   legs are drawn at random, raise ValueError.; particles.py:282-300 *)
Definition fixm (A B : Z) (axis : Z) : QM (K := K) unit := fix_mom_cons cv None A B false axis.
(* ... (plist[0], plist[1]); e.g. particles_set.py:91, 107 *)
Definition fix2 (plist : list Z) (axis : Z) : QM (K := K) unit :=
  match plist with p :: q :: _ => fixm p q axis | _ => raise IndexError end.
(* self.field.sqrt *)
Definition sqrtQ (x : K) : QM (K := K) K := match fsqrt x with Some y => ret y | None => raise ValueError end.

(* particles_set.py:79-91; the exception of particles_set.py:85 is constructed and not raised *)
Definition set_A2 (A B : Z) (X : K) (fix_mom : bool) : QM unit :=
  s <- get ;; plist <- lift (complementary so (length s) [A; B]) ;;
  pA <- at_ A ;; u <- needo (r_u pA) ;; pB <- at_ B ;; v <- needo (r_d pB) ;;
  c <- lift (divE (X - e1 u * e1 v) (e0 u)) ;;
  on B (assign_r_sp_d (V2 c (e1 v))) ;;
  if fix_mom then fix2 plist 2 else ret tt.
(* particles_set.py:95-107 *)
Definition set_S2 (A B : Z) (X : K) (fix_mom : bool) : QM unit :=
  s <- get ;; plist <- lift (complementary so (length s) [A; B]) ;;
  pA <- at_ A ;; u <- needo (l_d pA) ;; pB <- at_ B ;; v <- needo (l_u pB) ;;
  c <- lift (divE (X - e1 u * e1 v) (e0 u)) ;;
  on B (assign_l_sp_u (V2 c (e1 v))) ;;
  if fix_mom then fix2 plist 1 else ret tt.

(* particles_set.py:188-197: rest; the product associates to the right *)
Fixpoint rest_mat (b : bool) (s : ps K) (ms : list (list Z)) : result (m2 K) :=
  match ms with
  | [] => Err SyntaxError
  | [l] => mom_sum b s l
  | l :: ms' => rbind (mom_sum b s l) (fun m => rbind (rest_mat (negb b) s ms') (fun r => Ok (mmul m r)))
  end.
Definition is_angle (o : obr) : bool := match o with OAng => true | _ => false end.

(* particles_set.py:188-222 *)
Definition solve_ends (o : obr) (a : Z) (ms : list (list Z)) (d : Z) (c : cbr) (X : K) : QM unit :=
  s <- get ;; rest <- lift (rest_mat (is_angle o) s ms) ;;
  if (Z.eqb a d && Nat.even (length ms))%bool then
    pa <- at_ a ;;
    if is_angle o then
      v <- needo (r_d pa) ;;
      let B := e1 v in
      let x := B * m00 rest - B * m11 rest in
      r <- sqrtQ (x * x + 2 * 2 * m10 rest * (B * B * m01 rest - X)) ;;
      A <- lift (divE (x + r) (2 * m10 rest)) ;;
      on a (assign_r_sp_d (V2 A B))
    else
      v <- needo (l_d pa) ;;
      let B := e1 v in
      let x := B * m00 rest - B * m11 rest in
      r <- sqrtQ (x * x + 2 * 2 * m01 rest * (B * B * m10 rest - X)) ;;
      A <- lift (divE (x + r) (2 * m01 rest)) ;;
      on a (assign_l_sp_d (V2 A B))
  else
    pd <- at_ d ;; col <- needo (match c with CAng => r_d pd | _ => l_u pd end) ;;
    let w := mv rest col in
    pa <- at_ a ;;
    if is_angle o then
      u <- needo (r_u pa) ;; x <- lift (divE (X - e1 u * e1 w) (e0 w)) ;;
      on a (assign_r_sp_u (V2 x (e1 u)))
    else
      u <- needo (l_d pa) ;; x <- lift (divE (X - e1 u * e1 w) (e0 w)) ;;
      on a (assign_l_sp_d (V2 x (e1 u))).

(* self.compute of a chain that may have no entries left, particles_set.py:253-260 *)
Definition c_string (s : ps K) (o : obr) (a : Z) (es : list entry) (d : Z) (c : cbr) : result K :=
  match es with
  | [] => match o, c with OAng, CAng => c_A2 s a d | OSq, CSq => c_S2 s a d | _, _ => Err SyntaxError end
  | _ => c_chain s o a es d c
  end.
(* particles_set.py:249-265: the string begins o1 a1 | (b+...); o is the first bracket of the
   string before it was turned round *)
Definition solve_middle (o o1 : obr) (a1 b : Z) (m0 : list Z) (ms' : list (list Z)) (d1 : Z) (c1 : cbr) (X : K) : QM unit :=
  s <- get ;;
  total <- lift (c_chain s o1 a1 (ent m0 :: map ent ms') d1 c1) ;;
  part <- lift (c_chain s o1 a1 (ent [b] :: map ent ms') d1 c1) ;;
  end_of_part <- lift (c_string s (other_o o) b (map ent ms') d1 c1) ;;
  t <- lift (divE (X - (total - part)) end_of_part) ;;
  if is_angle o then set_A2 a1 b t false else set_S2 a1 b t false.

(* particles_set.py:267-287; o1, a1: first bracket and label of the string as it is by now *)
Definition fix_NB (o1 : obr) (a1 : Z) (a : Z) (ms : list (list Z)) (d : Z) (fix_mom : bool) : QM unit :=
  if fix_mom then
    s <- get ;; plist <- lift (complementary so (length s) (a :: concat ms ++ [d])) ;;
    match plist with
    | p :: q :: _ => fixm p q 1
    | p => fix2 (p ++ [a1]) (if is_angle o1 then 2 else 1)
    end
  else ret tt.

(* particles_set.py:111-287.  The recursion of particles_set.py:186 is at most two deep; running out of fuel
   is reported as Diverges. *)
Fixpoint set_NB (fuel : nat) (o : obr) (a : Z) (ms : list (list Z)) (d : Z) (c : cbr) (X : K) (fix_mom : bool) (mode : Z) : QM unit :=
  match fuel with
  | O => raise Diverges
  | S fuel' =>
    s <- get ;;
    plist <- lift (complementary so (length s) (a :: concat ms ++ [d])) ;;
    flip <- (if (Nat.ltb (length plist) 2 && fix_mom)%bool then lift (try_flips so (length s) a ms d (seq 0 (length ms))) else ret None) ;;
    let '(ms, X) := match flip with Some ms' => (ms', - X) | None => (ms, X) end in
    let ht := head_or_tail a ms d in
    let um := unique_middle a ms d in
    let ends := match ht with
                | Some _ => true
                | None => (Z.eqb a d && negb (zmem a (concat ms)) && Nat.even (length ms))%bool
                end in
    match (ends && Z.eqb mode 1)%bool, um with
    | false, Some (b, j, i) =>
        let m0 := swap_front j (nth i ms []) in
        if Nat.eqb i 0 then
          solve_middle o o a b m0 (tl ms) d c X ;; fix_NB o a a ms d fix_mom
        else
          solve_middle o (facing_o c) d b m0 (rev (removelast ms)) a (facing_c o) X ;; fix_NB (facing_o c) d a ms d fix_mom
    | _, _ =>
        match ht with
        | Some true => set_NB fuel' (facing_o c) d (rev (map (@rev Z) ms)) a (facing_c o) X fix_mom mode
        | _ => solve_ends o a ms d c X ;; fix_NB o a a ms d fix_mom
        end
    end
  end.

(* particles_set.py:291-311.  Simplification: a mode other than 1 and 2 (UnboundLocalError) raises
   OtherException; s_i raises SyntaxError (the string '<i|)|i]'). *)
Definition set_Sijk (l : list Z) (X : K) (fix_mom : bool) (mode : Z) : QM unit :=
  match l with
  | [] | [_] => raise SyntaxError
  | [_; _] => ret tt
  | i :: js =>
      s <- get ;; rest <- lift (c_S s l) ;;
      oc <- (if Z.eqb mode 1 then ret (OAng, CSq) else if Z.eqb mode 2 then ret (OSq, CAng) else raise OtherException) ;;
      ch <- lift (c_chain s (fst oc) i [ent js] i (snd oc)) ;;
      set_NB 3 (fst oc) i [js] i (snd oc) (X - (rest - ch)) fix_mom 1
  end.

(* particles_set.py:315-351.  Simplification: a corner that is left empty raises TypeError, see
   Cluster.v. *)
Definition set_Delta (corners : list (list Z)) (X : K) (fix_mom : bool) (mode : Z) : QM unit :=
  kc <- lift (match corners with [] => Err IndexError | c0 :: _ => py_pop c0 ((mode - 1) / 2) end) ;;
  let '(k, c0') := kc in
  let corners' := c0' :: tl corners in
  o0 <- at_ k ;; s <- get ;; oQs <- lift (cluster cv corners' s) ;;
  (* the legs 1 and 2 of the cluster: numpy.dot fails on a missing one *)
  q2 <- lift (getitem oQs 2) ;;
  q1 <- lift (getitem oQs 1) ;;
  ru <- needo (r_u o0) ;; lu <- needo (l_u o0) ;;
  let ab := if Z.odd mode then ru else lu in
  let v2' := if Z.odd mode then mv (r2b q2) lu else vm ru (r2b q2) in
  let v1' := if Z.odd mode then mv (r2b q1) lu else vm ru (r2b q1) in
  let '(b, alpha, beta, gamma, delta) := (e1 ab, e0 v2', e1 v2', e0 v1', e1 v1') in
  let '(l11, l12, l22) := (ldot q1 q1, ldot q1 q2, ldot q2 q2) in
  let QA := alpha * alpha / (2 * 2) in
  let QB := alpha * b * beta / 2 + alpha * l12 - gamma * l22 in
  let QC := b * b * (beta * beta) / (2 * 2) + b * beta * l12 - b * delta * l22 + l12 * l12 - l11 * l22 - X in
  r <- sqrtQ (QB * QB - 2 * 2 * QA * QC) ;;
  a <- lift (divE (- QB + r) (2 * QA)) ;;
  (if Z.odd mode then on k (assign_r_sp_u (V2 a b)) else on k (assign_l_sp_u (V2 a b))) ;;
  if fix_mom then
    match nth_error corners' 2 with
    | Some l => match rev l with x :: y :: _ => fixm x y 1 | _ => raise IndexError end
    | None => raise IndexError
    end
  else ret tt.
(* particles_set.py:320-321 *)
Definition set_Dijk (ijk : list Z) (X : K) (fix_mom : bool) (mode : Z) : QM unit :=
  s <- get ;; nol <- lift (arcs (S (length s)) (zlen s) ijk) ;;
  let '(l0, l1, l2) := nol in set_Delta [l0; l1; l2] X fix_mom mode.

(* particles_set.py:374-391, 393-396, 398-425 *)
Definition om_QB (a b c d e f g h i j k l m n o p X : K) : K :=
    (b * (d * d) * f * g * i * k - b * c * d * f * h * i * k + d * (f * f) * g * h * i * k - c * (f
    * f) * (h * h) * i * k + b * (d * d) * e * g * j * k - b * c * d * e * h * j * k - d * e * f * g
    * h * j * k + c * e * f * (h * h) * j * k + 2 * b * (d * d) * i * j * (k * k) + 2 * d * f * h *
    i * j * (k * k) - 2 * d * e * h * (j * j) * (k * k) - b * c * d * f * g * i * l - d * (f * f) *
    (g * g) * i * l + b * (c * c) * f * h * i * l + c * (f * f) * g * h * i * l - b * c * d * e * g
    * j * l + d * e * f * (g * g) * j * l + b * (c * c) * e * h * j * l - c * e * f * g * h * j * l
    - (2 * 2) * b * c * d * i * j * k * l - 2 * d * f * g * i * j * k * l - 2 * c * f * h * i * j *
    k * l + 2 * d * e * g * (j * j) * k * l + 2 * c * e * h * (j * j) * k * l + 2 * b * (c * c) * i
    * j * (l * l) + 2 * c * f * g * i * j * (l * l) - 2 * c * e * g * (j * j) * (l * l) - b * (d *
    d) * f * g * m * o + b * c * d * f * h * m * o - d * (f * f) * g * h * m * o + c * (f * f) * (h
    * h) * m * o + b * (d * d) * j * k * m * o + d * f * h * j * k * m * o - b * c * d * j * l * m *
    o - 2 * d * f * g * j * l * m * o + c * f * h * j * l * m * o - b * (d * d) * e * g * n * o + b
    * c * d * e * h * n * o + d * e * f * g * h * n * o - c * e * f * (h * h) * n * o + b * (d * d)
    * i * k * n * o + d * f * h * i * k * n * o - 2 * d * e * h * j * k * n * o - b * c * d * i * l
    * n * o + d * f * g * i * l * n * o - 2 * c * f * h * i * l * n * o + d * e * g * j * l * n * o
    + c * e * h * j * l * n * o + b * c * d * f * g * m * p + d * (f * f) * (g * g) * m * p - b * (c
    * c) * f * h * m * p - c * (f * f) * g * h * m * p - b * c * d * j * k * m * p + d * f * g * j *
    k * m * p - 2 * c * f * h * j * k * m * p + b * (c * c) * j * l * m * p + c * f * g * j * l * m
    * p + b * c * d * e * g * n * p - d * e * f * (g * g) * n * p - b * (c * c) * e * h * n * p + c
    * e * f * g * h * n * p - b * c * d * i * k * n * p - 2 * d * f * g * i * k * n * p + c * f * h
    * i * k * n * p + d * e * g * j * k * n * p + c * e * h * j * k * n * p + b * (c * c) * i * l *
    n * p + c * f * g * i * l * n * p - 2 * c * e * g * j * l * n * p).
(* particles_set.py:393-396 *)
Definition om_QA (a b c d e f g h i j k l m n o p X : K) : K :=
    (-(d * d) * f * g * j * k + c * d * f * h * j * k - (d * d) * (j * j) * (k * k) + c * d * f * g
    * j * l - (c * c) * f * h * j * l + 2 * c * d * (j * j) * k * l - (c * c) * (j * j) * (l * l) +
    (d * d) * f * g * n * o - c * d * f * h * n * o - (d * d) * j * k * n * o + c * d * j * l * n *
    o - c * d * f * g * n * p + (c * c) * f * h * n * p + c * d * j * k * n * p - (c * c) * j * l *
    n * p).
Definition om_QC (a b c d e f g h i j k l m n o p X : K) : K :=
    (-(b * b) * (d * d) * e * g * i * k + (b * b) * c * d * e * h * i * k - b * d * e * f * g * h *
    i * k + b * c * e * f * (h * h) * i * k + b * d * (e * e) * g * h * j * k - b * c * (e * e) * (h
    * h) * j * k - (b * b) * (d * d) * (i * i) * (k * k) - 2 * b * d * f * h * (i * i) * (k * k) -
    (f * f) * (h * h) * (i * i) * (k * k) + 2 * b * d * e * h * i * j * (k * k) + 2 * e * f * (h *
    h) * i * j * (k * k) - (e * e) * (h * h) * (j * j) * (k * k) + (b * b) * c * d * e * g * i * l +
    b * d * e * f * (g * g) * i * l - (b * b) * (c * c) * e * h * i * l - b * c * e * f * g * h * i
    * l - b * d * (e * e) * (g * g) * j * l + b * c * (e * e) * g * h * j * l + 2 * (b * b) * c * d
    * (i * i) * k * l + 2 * b * d * f * g * (i * i) * k * l + 2 * b * c * f * h * (i * i) * k * l +
    2 * (f * f) * g * h * (i * i) * k * l - 2 * b * d * e * g * i * j * k * l - 2 * b * c * e * h *
    i * j * k * l - (2 * 2) * e * f * g * h * i * j * k * l + 2 * (e * e) * g * h * (j * j) * k * l
    - (b * b) * (c * c) * (i * i) * (l * l) - 2 * b * c * f * g * (i * i) * (l * l) - (f * f) * (g *
    g) * (i * i) * (l * l) + 2 * b * c * e * g * i * j * (l * l) + 2 * e * f * (g * g) * i * j * (l
    * l) - (e * e) * (g * g) * (j * j) * (l * l) + (b * b) * (d * d) * e * g * m * o - (b * b) * c *
    d * e * h * m * o + b * d * e * f * g * h * m * o - b * c * e * f * (h * h) * m * o - (b * b) *
    (d * d) * i * k * m * o - 2 * b * d * f * h * i * k * m * o - (f * f) * (h * h) * i * k * m * o
    + b * d * e * h * j * k * m * o + e * f * (h * h) * j * k * m * o + (b * b) * c * d * i * l * m
    * o + b * d * f * g * i * l * m * o + b * c * f * h * i * l * m * o + (f * f) * g * h * i * l *
    m * o + b * d * e * g * j * l * m * o - 2 * b * c * e * h * j * l * m * o - e * f * g * h * j *
    l * m * o - b * d * (e * e) * g * h * n * o + b * c * (e * e) * (h * h) * n * o + b * d * e * h
    * i * k * n * o + e * f * (h * h) * i * k * n * o - (e * e) * (h * h) * j * k * n * o - 2 * b *
    d * e * g * i * l * n * o + b * c * e * h * i * l * n * o - e * f * g * h * i * l * n * o + (e *
    e) * g * h * j * l * n * o - (b * b) * c * d * e * g * m * p - b * d * e * f * (g * g) * m * p +
    (b * b) * (c * c) * e * h * m * p + b * c * e * f * g * h * m * p + (b * b) * c * d * i * k * m
    * p + b * d * f * g * i * k * m * p + b * c * f * h * i * k * m * p + (f * f) * g * h * i * k *
    m * p - 2 * b * d * e * g * j * k * m * p + b * c * e * h * j * k * m * p - e * f * g * h * j *
    k * m * p - (b * b) * (c * c) * i * l * m * p - 2 * b * c * f * g * i * l * m * p - (f * f) * (g
    * g) * i * l * m * p + b * c * e * g * j * l * m * p + e * f * (g * g) * j * l * m * p + b * d *
    (e * e) * (g * g) * n * p - b * c * (e * e) * g * h * n * p + b * d * e * g * i * k * n * p - 2
    * b * c * e * h * i * k * n * p - e * f * g * h * i * k * n * p + (e * e) * g * h * j * k * n *
    p + b * c * e * g * i * l * n * p + e * f * (g * g) * i * l * n * p - (e * e) * (g * g) * j * l
    * n * p - X).
(* particles_set.py:453-455 *)
Definition pi_num (a b c d e f g h i j k l m n o p X : K) : K :=
    (b * d * i * k + f * h * i * k - e * h * j * k - b * c * i * l - f * g * i * l + e * g * j * l +
    n * e * h * o - b * d * m * o - f * h * m * o - n * e * g * p + b * c * m * p + f * g * m * p -
    X).
Definition pi_den (a b c d e f g h i j k l m n o p X : K) : K :=
    (d * j * k - c * j * l - n * d * o + n * c * p).

(* particles_set.py:357-370, 436-449: the four legs and their spinors, then a new first component
   for |A>, then momentum conservation with E and F, whatever fix_mom is *)
Definition first_two (l : list Z) : result (Z * Z) := match l with x :: y :: _ => Ok (x, y) | _ => Err IndexError end.
(* particles_set.py:363-370, 442-449 *)
Definition spinors (k : Z) : QM (v2 K * v2 K) :=
  q <- at_ k ;; r <- needo (r_d q) ;; l <- needo (l_d q) ;; ret (r, l).
Definition set_arc (ijk : list Z)
    (new_a : (K -> K -> K -> K -> K -> K -> K -> K -> K -> K -> K -> K -> K -> K -> K -> K -> QM K)) : QM unit :=
  s <- get ;; nol <- lift (arcs (S (length s)) (zlen s) ijk) ;;
  let '(l0, l1, l2) := nol in
  AB <- lift (first_two l2) ;; CD <- lift (first_two l0) ;; EF <- lift (first_two l1) ;;
  qA <- spinors (fst AB) ;; qB <- spinors (snd AB) ;; qC <- spinors (fst CD) ;; qD <- spinors (snd CD) ;;
  let b := e1 (fst qA) in
  a <- new_a (e0 (fst qA)) b (e0 (snd qA)) (e1 (snd qA)) (e0 (fst qB)) (e1 (fst qB)) (e0 (snd qB)) (e1 (snd qB))
             (e0 (fst qC)) (e1 (fst qC)) (e0 (snd qC)) (e1 (snd qC)) (e0 (fst qD)) (e1 (fst qD)) (e0 (snd qD)) (e1 (snd qD)) ;;
  on (fst AB) (assign_r_sp_d (V2 a b)) ;;
  fixm (fst EF) (snd EF) 1.
(* particles_set.py:355-430 *)
Definition set_Oijk (ijk : list Z) (X : K) : QM unit :=
  set_arc ijk (fun a b c d e f g h i j k l m n o p =>
    let QA := om_QA a b c d e f g h i j k l m n o p X in
    let QB := om_QB a b c d e f g h i j k l m n o p X in
    let QC := om_QC a b c d e f g h i j k l m n o p X in
    r <- sqrtQ (QB * QB - 2 * 2 * QA * QC) ;;
    lift (divE (- QB - r) (2 * QA))).
(* particles_set.py:434-458 *)
Definition set_Pijk (ijk : list Z) (X : K) : QM unit :=
  set_arc ijk (fun a b c d e f g h i j k l m n o p =>
    lift (divE (pi_num a b c d e f g h i j k l m n o p X) (pi_den a b c d e f g h i j k l m n o p X))).

(* particles_set.py:478-508, see Tr5.v for the expressions *)
Definition set_tr5_five (X : K) : QM unit :=
  q1 <- spinors 1 ;; q2 <- spinors 2 ;; q3 <- spinors 3 ;; q4 <- spinors 4 ;; q5 <- spinors 5 ;;
  n <- lift (tr5_five (snd q1) (fst q2) (snd q2) (fst q3) (snd q3) (fst q4) (snd q4) (e1 (snd q5)) (2 * 2 * X)) ;;
  let '(r1, r5, c5) := n in
  on 1 (assign_r_sp_d r1) ;; on 1 (assign_l_sp_d (snd q1)) ;;
  on 2 (assign_r_sp_d (fst q2)) ;; on 2 (assign_l_sp_d (snd q2)) ;;
  on 3 (assign_r_sp_d (fst q3)) ;; on 3 (assign_l_sp_d (snd q3)) ;;
  on 4 (assign_r_sp_d (fst q4)) ;; on 4 (assign_l_sp_d (snd q4)) ;;
  on 5 (assign_r_sp_d r5) ;; on 5 (assign_l_sp_d (V2 c5 (e1 (snd q5)))).
(* particles_set.py:462-518 *)
Definition entry_labels (e : entry) : list Z := fst e :: map snd (snd e).
Definition set_tr5 (a b c d : entry) (X : K) (fix_mom : bool) : QM unit :=
  r <- lift (tr5_rotate 4 a b c d) ;;
  let '(a, b, c, d) := r in
  s <- get ;;
  plist <- lift (complementary so (length s) (entry_labels a ++ entry_labels b ++ entry_labels c ++ entry_labels d)) ;;
  if Nat.ltb (length s) 5 then raise MyException
  else if Nat.eqb (length s) 5 then set_tr5_five X
  else
    x <- lift (c_open_end s OSq (fst a) [b; c; d]) ;;
    y <- lift (c_open_end s OSq (fst a) [d; c; b]) ;;
    let AB := vsub x y in
    qa <- at_ (fst a) ;; v <- needo (r_d qa) ;;
    C <- lift (divE (X - e1 AB * e1 v) (e0 AB)) ;;
    on (fst a) (assign_r_sp_d (V2 C (e1 v))) ;;
    if fix_mom then fix2 plist 1 else ret tt.

(* particles_set.py:522-535 *)
Definition set_5Bdiff (a b c d e f : Z) (X : K) (fix_mom : bool) : QM unit :=
  s <- get ;;
  x <- lift (c_chain s OAng a [(b, []); ent [c; d]] e CAng) ;;
  pa <- at_ a ;; la <- needo (l_d pa) ;;
  y <- lift (c_chain s OAng b [(f, []); ent [c; d]] e CAng) ;;
  pb <- at_ b ;; lb <- needo (l_d pb) ;;
  let AB := vsub (vscale x la) (vscale y lb) in
  pe <- at_ e ;; v <- needo (l_u pe) ;;
  C <- lift (divE (- X - e1 AB * e1 v) (e0 AB)) ;;
  on e (assign_l_sp_u (V2 C (e1 v))) ;;
  if fix_mom then fixm c d 1 else ret tt.

(* particles_set.py:37-75; check_consistency (particles_set.py:39) only constructs exceptions.  Strings of
   other kinds fall through without effect. *)
Definition set_inner (t : target) (X : K) (fix_mom : bool) (mode : Z) : QM unit :=
  match t with
  | TInv (IA2 A B) => set_A2 A B X fix_mom
  | TInv (IS2 A B) => set_S2 A B X fix_mom
  | TInv (IChain o a es d c) => ms <- lift (rmapM labels es) ;; set_NB 3 o a ms d c X fix_mom mode
  | TInv (IS l) => set_Sijk l X fix_mom mode
  | TInv (IDelta cs) => set_Delta cs X fix_mom mode
  | TInv (IDelta3 ijk) => set_Dijk ijk X fix_mom mode
  | TInv (IOm ijk) => set_Oijk ijk X
  | TInv (IPi ijk) => set_Pijk ijk X
  | TInv (ITr5 a b c d) => set_tr5 a b c d X fix_mom
  | T5B a b c d e f => set_5Bdiff a b c d e f X fix_mom
  | _ => ret tt
  end.

(* self.compute of a target; the difference is an arithmetic expression of two chains *)
Definition c_target (s : ps K) (t : target) : result K :=
  match t with
  | TInv e => scalar (compute s e)
  | T5B a b c d e f =>
      rbind (c_chain s OAng a [(b, []); ent [c; d]; (e, [])] a CSq) (fun x =>
      rbind (c_chain s OAng b [(f, []); ent [c; d]; (e, [])] b CSq) (fun y => Ok (x - y)))
  end.
(* particles_set.py:23-35; abs(x - y) <= tollerance is x = y *)
Definition set_checked (inner : QM unit) (value : ps K -> result K) (X : K) (fix_mom : bool) : QM unit :=
  inner ;;
  s <- get ;; x <- lift (value s) ;;
  (if fix_mom then
     if negb (mom_cons_check s) then raise MyException
     else if negb (onshell_check s) then raise MyException else ret tt
   else ret tt) ;;
  if feqb x X then ret tt else raise MyException.
(* particles_set.py:23-35 *)
Definition set_ (t : target) (X : K) (fix_mom : bool) (mode : Z) : QM unit :=
  set_checked (set_inner t X fix_mom mode) (fun s => c_target s t) X fix_mom.
End SetOne.
