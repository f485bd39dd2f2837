(* Model of lips/hardcoded_limits/particles_set_pair.py: setting two invariants.  As in
   SetOne.v the strings are already split into their parts; the brackets are the unicode
   ones and a label is one digit. *)
From Coq Require Import List ZArith Bool.
From Verif Require Import Base Fld Particle Index Phase Arcs Compute Cluster Tr5 SetOne.
Import ListNotations.

(* the kinds of strings _set_pair_inner tells apart, particles_set_pair.py:44-150 *)
Inductive kind := KTwo | K3B | KNB | KS | KD | KOther.
(* pA2, pS2, p3B, pNB, pSijk, pDijk in the order in which they are tried; p3B does not
   accept '<', tools.py:32-49 *)
Definition kind_of (t : target) : kind :=
  match t with
  | TInv (IA2 _ _) | TInv (IS2 _ _) => KTwo
  | TInv (IChain OLt _ _ _ _) => KNB
  | TInv (IChain _ _ [_] _ CGt) => KNB
  | TInv (IChain _ _ [_] _ _) => K3B
  | TInv (IChain _ _ _ _ _) => KNB
  | TInv (IS _) => KS
  | TInv (IDelta _) | TInv (IDelta3 _) => KD
  | _ => KOther
  end.
(* what _set_pair_inner returns: None, a list of two strings, or "Not implemented." *)
Inductive pair_ret := PNone | PSwitch (t1 t2 : target) | PNotImplemented.

(* '<a|b>' or '[a|b]', particles_set_pair.py:179-184 *)
Definition two (angle : bool) (a b : Z) : target := TInv (if angle then IA2 a b else IS2 a b).

(* the last element, as left behind by a loop variable; None: never assigned; e.g. particles_set_pair.py:293-297, 346-356 *)
Definition last_opt {A} (l : list A) : option A := match l with [] => None | x :: t => Some (last t x) end.
(* reading a local variable that was never assigned: UnboundLocalError; e.g. particles_set_pair.py:346-356 *)
Definition bound {S A} (o : option A) : M S A := match o with Some a => ret a | None => raise OtherException end.
(* positions of the elements satisfying f, in order; e.g. particles_set_pair.py:346-356 *)
Definition where_ {A} (f : A -> bool) (l : list A) : list nat :=
  map fst (filter (fun x => f (snd x)) (combine (seq 0 (length l)) l)).
(* l[i] of a python list for i >= 0 *)
Definition pyget {S A} (l : list A) (i : nat) : M S A := match nth_error l i with Some x => ret x | None => raise IndexError end.

Section SetPair.
Context {K : Fld}.
Open Scope fld_scope.
Open Scope mon_scope.
Context (cv : convention) (so : list Z -> list Z).
(* the pairs that are not in this file: two-bracket & chain, 3B & 3B, 3B & Delta, s & Delta,
   chain & chain, chain & Delta (particles_set_pair.py:210-274, 372-581, 673-783, 833-938).
   Here they may do anything to the point, return anything and raise anything; what they do is
   modelled in SetPairMore.v. *)
Context (other : target -> K -> target -> K -> QM (K := K) pair_ret).

(* self._set(t, X, fix_mom=False, mode=mode) *)
Definition set_only (t : target) (X : K) (mode : Z) : QM (K := K) unit := set_ cv so t X false mode.

(* the end of three pair setters, particles_set_pair.py:194-206, 314-325: two free legs,
   one free leg and ab[0], or ab[0] and ab[1] *)
Definition fix_after (angle : bool) (a b : Z) (plist : list Z) : QM (K := K) unit :=
  match plist with
  | p :: q :: _ => fixm cv p q 1
  | [p] => if angle then fixm cv a p 2 else fixm cv a p 1
  | [] => fixm cv a b 1 ;; s <- get ;; if mom_cons_check s then ret tt else raise MyException
  end.

(* particles_set_pair.py:157-206; the bracket is an angle one if the flag is true *)
Definition pair_two_two (an1 : bool) (a b : Z) (v1 : K) (an2 : bool) (c d : Z) (v2 : K) : QM pair_ret :=
  let in_cd x := zmem x [c; d] in
  let in_ab x := zmem x [a; b] in
  let overlap := filter in_cd [a; b] in
  let ab_only := last_opt (filter (fun x => negb (in_cd x)) [a; b]) in
  let cd_only := last_opt (filter (fun x => negb (in_ab x)) [c; d]) in
  r <- (match overlap with
        | o :: _ =>
            if Bool.eqb an1 an2 then
              x <- bound ab_only ;; y <- bound cd_only ;;
              ret ((two an1 o x, if Z.eqb o a then v1 else - v1), (two an2 o y, if Z.eqb o c then v2 else - v2))
            else ret ((two an1 a b, v1), (two an2 c d, v2))
        | [] => ret ((two an1 a b, v1), (two an2 c d, v2))
        end) ;;
  let '((t1, w1), (t2, w2)) := r in
  set_only t1 w1 1 ;; set_only t2 w2 1 ;;
  s <- get ;; plist <- lift (complementary so (length s) [a; b; c; d]) ;;
  fix_after an1 a b plist ;; ret PNone.

(* particles_set_pair.py:278-325 *)
Definition pair_two_S (rec : target -> K -> target -> K -> QM pair_ret) (an1 : bool) (a b : Z) (v1 : K) (ijk : list Z) (v2 : K) : QM pair_ret :=
  let finish (rest : list Z) (t2 : list Z) :=
    set_only (two an1 a b) v1 1 ;;
    set_only (TInv (IS t2)) v2 (if an1 then 2%Z else 1%Z) ;;
    s <- get ;; plist <- lift (complementary so (length s) (rest ++ [a; b])) ;;
    fix_after an1 a b plist ;; ret PNone in
  if (zmem a ijk || zmem b ijk)%bool then
    let (l1, o1) := if zmem a ijk then (remove1 a ijk, [a]) else (ijk, []) in
    let (l2, o2) := if zmem b l1 then (remove1 b l1, [b]) else (l1, []) in
    finish l2 (l2 ++ o1 ++ o2)
  else
    s <- get ;;
    if (Nat.eqb (length s) 6 && Nat.eqb (length ijk) 3)%bool then
      compl <- lift (complementary so (length s) ijk) ;;
      match compl with
      | x :: y :: z :: _ => rec (two an1 a b) v1 (TInv (IS [x; y; z])) v2 ;; ret PNone
      | _ => raise IndexError
      end
    else if Nat.ltb 6 (length s) then finish ijk ijk
    else raise MyException.

(* particles_set_pair.py:329-368; [adjacent] is true for Delta_ijk *)
Definition pair_two_D (an1 : bool) (a b : Z) (v1 : K) (adjacent : bool) (lists : list (list Z)) (v2 : K) : QM pair_ret :=
  let both := last_opt (where_ (fun l => zmem a l && zmem b l) lists) in
  let free := last_opt (where_ (fun l => negb (zmem a l) && negb (zmem b l)) lists) in
  i <- (match both with
        | Some i => ret i
        | None => f <- bound free ;; ret (Nat.modulo (f + 1) 3)
        end) ;;
  l0 <- pyget lists i ;; l1 <- pyget lists (Nat.modulo (i + 1) 3) ;; l2 <- pyget lists (Nat.modulo (i + 2) 3) ;;
  t2 <- (if adjacent then
           x <- pyget l0 0 ;; y <- pyget l1 0 ;; z <- pyget l2 0 ;; ret (TInv (IDelta3 [x; y; z]))
         else ret (TInv (IDelta [l0; l1; l2]))) ;;
  set_only (two an1 a b) v1 1 ;;
  set_ cv so t2 v2 true (if an1 then 2%Z else 1%Z) ;; ret PNone.

(* particles_set_pair.py:787-829 *)
Definition pair_S_S (rec : target -> K -> target -> K -> QM pair_ret) (ijk : list Z) (v1 : K) (lmn : list Z) (v2 : K) : QM pair_ret :=
  let ovr := filter (fun i => zmem i lmn) ijk in
  let ijko := filter (fun i => negb (zmem i lmn)) ijk in
  let lmno := filter (fun l => negb (zmem l ijk)) lmn in
  s <- get ;; plist <- lift (complementary so (length s) (ovr ++ ijko ++ lmno)) ;;
  match plist with
  | p :: q :: _ =>
      set_only (TInv (IS (ijko ++ ovr))) v1 1 ;;
      set_only (TInv (IS (lmno ++ ovr))) v2 2 ;;
      fixm cv p q 1 ;; ret PNone
  | _ =>
      let (lmn', t1) := if Nat.ltb (length lmn) (length ijk) then (ijk, lmn) else (lmn, ijk) in
      compl <- lift (complementary so (length s) lmn') ;;
      match compl with
      | [] => ret PNone                       (* the string 's_' is of no known kind *)
      | _ => rec (TInv (IS t1)) v1 (TInv (IS compl)) v2
      end
  end.

(* particles_set_pair.py:585-669: '<a|(m)|d]' if the flag is true, '[a|(m)|d>' otherwise.
   Simplification: the two end brackets of a 3B string are of different kinds. *)
Definition three (angle : bool) (a : Z) (m : list Z) (d : Z) : target :=
  TInv (IChain (if angle then OAng else OSq) a [ent m] d (if angle then CSq else CAng)).
Definition pair_3B_S (rec : target -> K -> target -> K -> QM pair_ret) (angle : bool) (a : Z) (m : list Z) (d : Z) (v1 : K) (ijk : list Z) (v2 : K) : QM pair_ret :=
  s <- get ;;
  let n := length s in
  let l3B := a :: m ++ [d] in
  free <- lift (complementary so n (ijk ++ l3B)) ;;
  cijk <- lift (complementary so n ijk) ;;
  free1 <- lift (complementary so n (l3B ++ cijk)) ;;
  c3B <- lift (complementary so n l3B) ;;
  free2 <- lift (complementary so n (ijk ++ a :: d :: c3B)) ;;
  let go (angle : bool) (a : Z) (m : list Z) (d : Z) (mode : Z) :=
    free <- lift (complementary so n (ijk ++ a :: m ++ [d])) ;;
    set_only (TInv (IS ijk)) v2 1 ;; set_only (three angle a m d) v1 mode ;;
    (match free with
     | p :: q :: _ => fixm cv p q 1
     | [p] => if negb (zmem a ijk) then fixm cv p a (if angle then 2 else 1)%Z
              else if negb (zmem d ijk) then fixm cv p d (if angle then 1 else 2)%Z
              else ret tt
     | [] => i <- pyget ijk 0 ;; j <- pyget ijk 1 ;; fixm cv i j 1 ;;
             s' <- get ;; if mom_cons_check s' then ret tt else raise MyException
     end) ;; ret PNone in
  if (Nat.leb 2 (length free) || (Nat.ltb (length free1) 2 && Nat.ltb (length free2) 2))%bool then
    if negb (zmem a ijk) then go angle a m d 1%Z
    else if negb (zmem d ijk) then go (negb angle) d m a 1%Z
    else match last_opt (filter (fun i => negb (zmem i ijk)) m) with
         | Some x => go angle a (x :: remove1 x m) d 2%Z
         | None => x <- pyget m 0 ;; y <- pyget m 1 ;;
                   rec (TInv (IA2 x y)) v2 (TInv (IS ijk)) v1 ;;
                   ret (PSwitch (TInv (IA2 x y)) (TInv (IS ijk)))
         end
  else if Nat.leb 2 (length free1) then
    match cijk with
    | [] => ret PNone                          (* the string 's_' is of no known kind *)
    | _ => rec (TInv (IS cijk)) v2 (three angle a m d) v1
    end
  else match c3B with
       | [] => raise ValueError                (* int('') *)
       | _ => rec (TInv (IS ijk)) v2 (three angle a c3B d) v1
       end.

(* the corners of Delta_ij|kl|mn and of Delta_ijk, particles_set_pair.py:337-343 *)
Definition delta_lists (t : target) : QM (K := K) (bool * list (list Z)) :=
  match t with
  | TInv (IDelta cs) => ret (false, cs)
  | TInv (IDelta3 ijk) =>
      s <- get ;; arc <- lift (arcs (S (length s)) (zlen s) ijk) ;;
      let '(l0, l1, l2) := arc in ret (true, [l0; l1; l2])
  | _ => raise TypeError
  end.

(* particles_set_pair.py:42-153.  [fuel] bounds the depth of python's recursion. *)
Fixpoint set_pair_inner (fuel : nat) (t1 : target) (v1 : K) (t2 : target) (v2 : K) : QM pair_ret :=
  match fuel with
  | O => raise RecursionError
  | S f =>
      let rec := set_pair_inner f in
      let swap := rec t2 v2 t1 v1 in
      match kind_of t1, kind_of t2 with
      | KTwo, KTwo =>
          match t1, t2 with
          | TInv (IA2 a b), TInv (IA2 c d) => pair_two_two true a b v1 true c d v2
          | TInv (IA2 a b), TInv (IS2 c d) => pair_two_two true a b v1 false c d v2
          | TInv (IS2 a b), TInv (IA2 c d) => pair_two_two false a b v1 true c d v2
          | TInv (IS2 a b), TInv (IS2 c d) => pair_two_two false a b v1 false c d v2
          | _, _ => raise TypeError
          end
      | KTwo, K3B | KTwo, KNB => other t1 v1 t2 v2
      | KTwo, KS =>
          match t1, t2 with
          | TInv (IA2 a b), TInv (IS l) => pair_two_S rec true a b v1 l v2
          | TInv (IS2 a b), TInv (IS l) => pair_two_S rec false a b v1 l v2
          | _, _ => raise TypeError
          end
      | KTwo, KD =>
          cs <- delta_lists t2 ;;
          match t1 with
          | TInv (IA2 a b) => pair_two_D true a b v1 (fst cs) (snd cs) v2
          | TInv (IS2 a b) => pair_two_D false a b v1 (fst cs) (snd cs) v2
          | _ => raise TypeError
          end
      | K3B, KTwo => swap
      | K3B, K3B => other t1 v1 t2 v2
      | K3B, KNB => ret PNotImplemented
      | K3B, KS =>
          match t1, t2 with
          | TInv (IChain o a [e] d _), TInv (IS l) =>
              m <- lift (labels e) ;; pair_3B_S rec (is_angle o) a m d v1 l v2
          | _, _ => raise TypeError
          end
      | K3B, KD => other t1 v1 t2 v2
      | KNB, KTwo => swap
      | KNB, K3B => ret PNotImplemented
      | KNB, KNB => other t1 v1 t2 v2
      | KNB, KS => ret PNotImplemented
      | KNB, KD => other t1 v1 t2 v2
      | KS, KTwo | KS, K3B => swap
      | KS, KNB => ret PNotImplemented
      | KS, KS => match t1, t2 with TInv (IS l), TInv (IS l') => pair_S_S rec l v1 l' v2 | _, _ => raise TypeError end
      | KS, KD => other t1 v1 t2 v2
      | KD, KTwo | KD, K3B | KD, KS => swap
      | KD, KNB => other t2 v2 t1 v1
      | KD, KD => ret PNotImplemented
      | _, _ => ret PNone
      end
  end.

(* particles_set_pair.py:23-40; min(abs(x - v), abs(x + v)) <= tollerance is x = v or
   x = -v.  [value] is self.compute. *)
Definition up_to_sign (x v : K) : bool := feqb x v || feqb x (- v).
(* particles_set_pair.py:23-40 *)
Definition pair_checked (inner : QM pair_ret) (value : ps K -> target -> result K) (t1 : target) (v1 : K) (t2 : target) (v2 : K) : QM unit :=
  r <- inner ;;
  ts <- (match r with
         | PNone => ret (t1, t2)
         | PSwitch u1 u2 => ret (u1, u2)
         | PNotImplemented => raise MyException
         end) ;;
  s <- get ;;
  x1 <- lift (value s (fst ts)) ;; x2 <- lift (value s (snd ts)) ;;
  if negb (mom_cons_check s) then raise MyException
  else if negb (onshell_check s) then raise MyException
  else if (up_to_sign x1 v1 && up_to_sign x2 v2)%bool then ret tt else raise MyException.
(* particles_set_pair.py:23-40 *)
Definition set_pair (fuel : nat) (t1 : target) (v1 : K) (t2 : target) (v2 : K) : QM unit :=
  pair_checked (set_pair_inner fuel t1 v1 t2 v2) (fun s t => c_target s t) t1 v1 t2 v2.
End SetPair.
