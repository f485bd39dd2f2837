(* Model of the pair setters that SetPair.v leaves open, lips/hardcoded_limits/
   particles_set_pair.py:210-274, 372-581, 673-783, 833-1016.  As in SetPair.v the strings
   are already split into their parts; the brackets are the unicode ones, a label is one
   digit and the entries of the three-brackets are written in round brackets. *)
From Coq Require Import List ZArith Bool.
From Verif Require Import Base Fld Particle Index Phase Arcs Compute Cluster Tr5 SetOne SetPair.
Import ListNotations.

(* the first character of '<a|b>' and of '[a|b]'; e.g. particles_set_pair.py:956 *)
Definition o_of (angle : bool) : obr := if angle then OAng else OSq.
(* the last one; e.g. particles_set_pair.py:961 *)
Definition c_of (angle : bool) : cbr := if angle then CAng else CSq.
(* equality of first characters; e.g. particles_set_pair.py:965 *)
Definition obr_eqb (x y : obr) : bool := match x, y with OAng, OAng | OLt, OLt | OSq, OSq => true | _, _ => false end.
(* equality of last characters; e.g. particles_set_pair.py:970 *)
Definition cbr_eqb (x y : cbr) : bool := match x, y with CAng, CAng | CGt, CGt | CSq, CSq => true | _, _ => false end.
(* t_s[-1] == the closing angle bracket; e.g. particles_set_pair.py:971 *)
Definition is_angle_c (c : cbr) : bool := match c with CAng => true | _ => false end.
(* an entry '()', which pNB does not accept; tools.py:50 *)
Definition is_nil {A} (l : list A) : bool := match l with [] => true | _ => false end.

(* a chain taken apart: first bracket, start, middle, end, last bracket; particles.py:446-451 *)
Definition chain := (obr * Z * list (list Z) * Z * cbr)%type.
(* two legs and the axis along which they are changed; python's False is None *)
Definition how := option (Z * Z * Z).

(* the string of a chain, particles.py:436-443 *)
Definition chain_target (x : chain) : target := let '(o, s, ms, e, c) := x in TInv (IChain o s (map ent ms) e c).
(* t_s2[::-1] with the brackets turned round, particles_set_pair.py:241-244, 257-260 *)
Definition flip_chain (x : chain) : chain :=
  let '(o, s, ms, e, c) := x in (facing_o c, e, rev (map (@rev Z) ms), s, facing_c o).

(* axis=2 changes the square spinors, axis=1 the angle ones; e.g. particles_set_pair.py:956-959 *)
Definition spare (angle : bool) : Z := if angle then 2%Z else 1%Z.

(* _can_fix_mom_cons, particles_set_pair.py:942-1016; the first string is '<a|b>' (angle) or
   '[a|b]'.  A second string that is no chain makes the function return None, which every
   caller subscripts or unpacks: TypeError. *)
Definition can_fix (so : list Z -> list Z) (n : nat) (angle : bool) (a b : Z) (x : chain) : result how :=
  let '(o, s, ms, e, c) := x in
  if existsb is_nil ms then Err TypeError else
  let lNB := s :: concat ms ++ [e] in
  let open := negb (Z.eqb s e) || Nat.even (length ms) in
  let s_ok := open && negb (zmem s (concat ms)) in
  let e_ok := open && negb (zmem e (concat ms)) in
  let same_o := obr_eqb (o_of angle) o in
  let same_c := cbr_eqb (c_of angle) c in
  rbind (complementary so n ([a; b] ++ lNB)) (fun plist =>
  Ok (match plist with
  | p :: q :: _ => Some (p, q, 1%Z)
  | [p] =>
      if negb (zmem a lNB) then Some (p, a, spare angle)
      else if negb (zmem b lNB) then Some (p, b, spare angle)
      else if (negb (zmem s [a; b]) || same_o) && s_ok then Some (p, s, spare (is_angle o))
      else if (negb (zmem e [a; b]) || same_c) && e_ok then Some (p, e, spare (is_angle_c c))
      else None
  | [] =>
      if negb (zmem a lNB) && negb (zmem b lNB) then None
      else if negb (zmem a lNB) && negb (zmem s [a; b]) && same_o && s_ok then Some (a, s, spare angle)
      else if negb (zmem b lNB) && negb (zmem s [a; b]) && same_o && s_ok then Some (b, s, spare angle)
      else if negb (zmem a lNB) && negb (zmem e [a; b]) && same_c && e_ok then Some (a, e, spare angle)
      else if negb (zmem b lNB) && negb (zmem e [a; b]) && same_c && e_ok then Some (b, e, spare angle)
      else if ((negb (zmem s [a; b]) || same_o) && negb (zmem s (concat ms))) && negb (Z.eqb s e)
              && ((negb (zmem e [a; b]) || same_c) && negb (zmem e (concat ms))) && Nat.even (length ms)
           then Some (s, e, spare (is_angle o))
      else None
  end)%bool).

(* what is left out of the complement of the i-th entry besides the entry itself,
   particles_set_pair.py:223-230 *)
Definition beside (i : nat) (x : chain) : list Z :=
  let '(o, s, ms, e, c) := x in
  let last := Nat.eqb i (length ms - 1) in
  if (Nat.eqb i 0 && last)%bool then [s; e] else if Nat.eqb i 0 then [s] else if last then [e] else [].
(* particles_set_pair.py:221-234: every entry in turn is rewritten by momentum conservation;
   the last rewriting after which momentum conservation can be restored is taken *)
Fixpoint try_alts (so : list Z -> list Z) (n : nat) (angle : bool) (a b : Z) (x : chain) (is : list nat) (cur : chain) : result chain :=
  match is with
  | [] => Ok cur
  | i :: is' =>
      let '(o, s, ms, e, c) := x in
      rbind (complementary so n (nth i ms [] ++ beside i x)) (fun alt =>
      let x' := (o, s, set_nth i alt ms, e, c) in
      rbind (can_fix so n angle a b x') (fun r =>
      try_alts so n angle a b x is' (match r with Some _ => x' | None => cur end)))
  end.
(* particles_set_pair.py:250-255, 262-267: an entry of the first sum that occurs neither in the
   others nor in '<a|b>' changes place with the first one; None if there is none *)
Definition seek_free (a b : Z) (x : chain) : option chain :=
  let '(o, s, ms, e, c) := x in
  match find_unique (concat (tl ms) ++ [a; b]) (hd [] ms) 0 with
  | Some (_, j) => Some (o, s, swap_front j (hd [] ms) :: tl ms, e, c)
  | None => None
  end.
(* particles_set_pair.py:219-269: the chain that is set, the mode in which it is set and how
   momentum conservation is restored *)
Definition plan_two_NB (so : list Z -> list Z) (n : nat) (angle : bool) (a b : Z) (x : chain) : result (chain * Z * how) :=
  if (is_nil (snd (fst (fst x))) || existsb is_nil (snd (fst (fst x))))%bool then Err IndexError else   (* particles.py:447 *)
  rbind (can_fix so n angle a b x) (fun r =>
  rbind (match r with
         | Some _ => Ok x
         | None => try_alts so n angle a b x (seq 0 (length (snd (fst (fst x))))) x
         end) (fun x =>
  let '(o, s, ms, e, c) := x in
  let turn := (obr_eqb o (o_of angle) && (negb (cbr_eqb c (c_of angle)) || (Z.eqb a s && negb (Z.eqb a e))))%bool in
  let x := if turn then flip_chain x else x in
  let '(o, s, ms, e, c) := x in
  rbind (complementary so n ([a; b] ++ s :: concat ms ++ [e])) (fun plist =>
  let two := (is_nil plist || (zmem s [a; b] && Nat.ltb 1 (length ms)))%bool in
  let x := if two then
             match seek_free a b x with
             | Some y => y
             | None => match seek_free a b (flip_chain x) with Some y => y | None => flip_chain x end
             end
           else x in
  rbind (can_fix so n angle a b x) (fun r => Ok (x, if two then 2%Z else 1%Z, r))))).

(* '<s|(m)|e]' if the flag is true, '[s|(m)|e>' otherwise; particles_set_pair.py:374-384 *)
Definition br3 := (bool * Z * list Z * Z)%type.
(* particles_set_pair.py:374-384: l3B *)
Definition all3 (x : br3) : list Z := let '(_, s, m, e) := x in s :: m ++ [e].
(* int('') when the middle is empty, particles_set_pair.py:378, 389 *)
Definition full3 (x : br3) : result unit := let '(_, _, m, _) := x in if is_nil m then Err ValueError else Ok tt.
(* particles_set_pair.py:430-441 *)
Definition flip3 (so : list Z -> list Z) (n : nat) (x : br3) : result br3 :=
  let '(an, s, m, e) := x in
  rbind (full3 x) (fun _ => rbind (complementary so n (s :: e :: m)) (fun m' => Ok (an, s, m', e))).
(* particles_set_pair.py:443-449 *)
Definition reverse3 (x : br3) : br3 := let '(an, s, m, e) := x in (negb an, e, m, s).
(* l.count(x); e.g. particles_set_pair.py:412 *)
Definition count (x : Z) (l : list Z) : nat := length (filter (Z.eqb x) l).
(* particles_set_pair.py:386-421 *)
Definition how3 (so : list Z -> list Z) (n : nat) (x y : br3) : result how :=
  let '(an0, s0, m0, e0) := x in
  let '(an1, s1, m1, e1) := y in
  let l0 := all3 x in let l1 := all3 y in
  rbind (full3 x) (fun _ => rbind (full3 y) (fun _ =>
  rbind (complementary so n (l0 ++ l1)) (fun free =>
  Ok (match free with
  | f :: g :: _ => Some (f, g, 1%Z)
  | [f] =>
      if negb (Bool.eqb an0 an1) then None
      else if negb (zmem e1 m0) && negb (Z.eqb e1 s0) && negb (Z.eqb e1 s1) then Some (f, e1, spare (negb an0))
      else if negb (zmem s1 m0) && negb (Z.eqb s1 e0) && negb (Z.eqb s1 e1) then Some (f, s1, spare an0)
      else if negb (zmem e0 m1) && negb (Z.eqb e0 s1) && negb (Z.eqb e0 s0) then Some (f, e0, spare (negb an0))
      else if negb (zmem s0 m1) && negb (Z.eqb s0 e1) && negb (Z.eqb s0 e0) then Some (f, s0, spare an0)
      else None
  | [] =>
      let alone x l l' := negb (zmem x l') && Nat.eqb (count x l) 1 in
      if Bool.eqb an0 an1 then
        if alone s0 l0 l1 && alone s1 l1 l0 then Some (s0, s1, spare an0) else None
      else if an0 then
        if alone s0 l0 l1 && alone e1 l1 l0 then Some (s0, e1, 2%Z) else None
      else
        if alone e0 l0 l1 && alone s1 l1 l0 then Some (e0, s1, 2%Z) else None
  end)%bool))).
(* particles_set_pair.py:423-428 *)
Definition can3 (so : list Z -> list Z) (n : nat) (x y : br3) : result bool :=
  rbind (how3 so n x y) (fun r => Ok (match r with Some _ => true | None => false end)).
(* particles_set_pair.py:454-487: which of the two are rewritten by momentum conservation *)
Definition flips3 (so : list Z -> list Z) (n : nat) (x y : br3) : result (br3 * br3) :=
  let '(an0, s0, m0, e0) := x in
  let '(an1, s1, m1, e1) := y in
  let ends := [s0; s1; e0; e1] in
  rbind (full3 x) (fun _ => rbind (full3 y) (fun _ =>
  rbind (complementary so n (all3 x ++ all3 y)) (fun free =>
  rbind (complementary so n (s0 :: e0 :: m0)) (fun c0 =>
  rbind (complementary so n (s1 :: e1 :: m1)) (fun c1 =>
  rbind (complementary so n (ends ++ m1 ++ c0)) (fun free0 =>
  rbind (complementary so n (ends ++ m0 ++ c1)) (fun free1 =>
  rbind (complementary so n (ends ++ c0 ++ c1)) (fun free01 =>
  let x' := (an0, s0, c0, e0) in let y' := (an1, s1, c1, e1) in
  let '(x, y) := if Nat.leb 2 (length free) then (x, y)
                 else if Nat.leb 2 (length free0) then (x', y)
                 else if Nat.leb 2 (length free1) then (x, y')
                 else if Nat.leb 2 (length free01) then (x', y')
                 else (x, y) in
  rbind (can3 so n x y) (fun ok => if ok then Ok (x, y) else
  rbind (flip3 so n x) (fun x' => rbind (can3 so n x' y) (fun ok => if ok then Ok (x', y) else
  rbind (flip3 so n y) (fun y' => rbind (can3 so n x y') (fun ok => if ok then Ok (x, y') else
  rbind (can3 so n x' y') (fun ok => if ok then Ok (x', y') else Ok (x, y))))))))))))))).

(* set(l) == set(l'), len(set(l)); particles_set_pair.py:496 *)
Definition same_set (l l' : list Z) : bool := (forallb (fun x => zmem x l') l && forallb (fun x => zmem x l) l')%bool.
(* particles_set_pair.py:496 *)
Definition distinct (l : list Z) : nat := length (nodup Z.eq_dec l).

(* what follows the rewriting, particles_set_pair.py:489-569: the closed formulas, the two
   strings with the mode of the second (None: never assigned), or the call with the two
   exchanged *)
Inductive plan3 := P3Formula (x y : br3) | P3Set (x y : br3) (mode : option Z) | P3Swap (x y : br3).
(* particles_set_pair.py:524-558: the loop passes over the labels that are both ends of the
   first string *)
Definition order3 (x y : br3) (only : list Z) : plan3 :=
  let '(an0, s0, m0, e0) := x in
  let '(an1, s1, m1, e1) := y in
  match filter (fun k => negb (Z.eqb k s0 && Z.eqb k e0)) only with
  | [] => P3Set x y None
  | k :: _ =>
      let m1' := k :: remove1 k m1 in
      let y_as an := if Bool.eqb an an1 then (an, s1, m1', e1) else (an, e1, m1', s1) in
      if Z.eqb k s0 then
        (* the ends of the first string are exchanged; the character for '[' becomes a closing
           bracket, for which nothing is rebuilt *)
        if an0 then P3Set (false, e0, m0, s0) (y_as false) (Some 2%Z) else P3Set x y (Some 2%Z)
      else P3Set x (y_as an0) (Some 2%Z)
  end.
(* particles_set_pair.py:489-569 *)
Definition after3 (x y : br3) : plan3 :=
  let '(an0, s0, m0, e0) := x in
  let '(an1, s1, m1, e1) := y in
  let only0 := filter (fun k => negb (zmem k m1)) m0 in
  let only1 := filter (fun k => negb (zmem k m0)) m1 in
  let just (l : list Z) (k : Z) := match l with [z] => Z.eqb z k | _ => false end in
  if (same_set (all3 x) (all3 y) && Nat.eqb (distinct (all3 x)) 3 && Nat.eqb (distinct (all3 y)) 3)%bool then P3Formula x y
  else if (negb (is_nil only1) && (negb (just only1 s0) || negb (just only1 e0)))%bool then order3 x y only1
  else if (negb (is_nil only0) && (negb (just only0 s1) || negb (just only0 e1)))%bool then P3Swap x y
  else
    let x' := if Bool.eqb an0 an1 then x else reverse3 x in
    if negb (Z.eqb s0 s1) then P3Set x' y (Some 1%Z)
    else if negb (Z.eqb e0 e1) then P3Set (reverse3 x') (reverse3 y) (Some 1%Z)
    else P3Set x' y None.

(* moving an element of a list to its end or to its front; e.g. particles_set_pair.py:720-721 *)
Definition to_end {A} (i : nat) (l : list A) : list A := match nth_error l i with Some x => firstn i l ++ skipn (S i) l ++ [x] | None => l end.
(* particles_set_pair.py:724-725 *)
Definition to_front {A} (i : nat) (l : list A) : list A := match nth_error l i with Some x => x :: firstn i l ++ skipn (S i) l | None => l end.
(* particles_set_pair.py:717-726: the first corner with the label; IndexError for a corner of
   that label alone *)
Fixpoint reorder_same (s : Z) (m : list Z) (todo : list (list Z)) (i : nat) (lists : list (list Z)) : result (list (list Z)) :=
  match todo with
  | [] => Ok lists
  | l :: todo' =>
      if zmem s l then
        match filter (fun x => negb (Z.eqb x s)) l with
        | [] => Err IndexError
        | x :: _ => if zmem x m then Ok (to_end i lists) else Ok (to_front i lists)
        end
      else reorder_same s m todo' (S i) lists
  end.
(* particles_set_pair.py:727-737; the flag: the string is reversed *)
Fixpoint reorder_ends (s e : Z) (todo : list (list Z)) (i : nat) (lists : list (list Z)) : result (bool * list (list Z)) :=
  match todo with
  | [] => Ok (false, lists)
  | [] :: _ => Err IndexError
  | (y :: _) :: todo' =>
      if Z.eqb s y then Ok (false, to_front i lists)
      else if Z.eqb e y then Ok (true, to_front i lists)
      else reorder_ends s e todo' (S i) lists
  end.
(* particles_set_pair.py:708-751; None is False *)
Definition reorder (x : br3) (adjacent : bool) (lists : list (list Z)) : result (option (br3 * target)) :=
  let '(an, s, m, e) := x in
  rbind (full3 x) (fun _ =>
  rbind (if Z.eqb s e then rbind (reorder_same s m lists 0 lists) (fun ls => Ok (x, ls))
         else rbind (reorder_ends s e lists 0 lists) (fun r => Ok (if fst r then reverse3 x else x, snd r))) (fun xl =>
  let '(x, lists) := xl in
  let '(an, s, m, e) := x in
  match where_ (fun l => negb (existsb (fun k => zmem k l) (s :: m))) lists with
  | [] => Ok None
  | i :: _ =>
      match to_end i lists with
      | l0 :: l1 :: l2 :: _ =>
          if adjacent then
            match l0, l1, l2 with
            | x0 :: _, x1 :: _, x2 :: _ => Ok (Some (x, TInv (IDelta3 [x0; x1; x2])))
            | _, _, _ => Err IndexError
            end
          else Ok (Some (x, TInv (IDelta [l0; l1; l2])))
      | _ => Err IndexError
      end
  end)).

(* particles_set_pair.py:845-873: the corner inside s_ijk and the first other one whose first leg
   is in it.  Simplification: a corner is not empty. *)
Definition corners_in (S : list Z) (lists : list (list Z)) : option (nat * nat) :=
  match where_ (fun l => forallb (fun x => zmem x S) l) lists with
  | [] => None
  | i :: _ =>
      match filter (fun j => negb (Nat.eqb j i)) (where_ (fun l => match l with x :: _ => zmem x S | [] => false end) lists) with
      | [] => None
      | j :: _ => Some (i, j)
      end
  end.

(* equality of strings, given by their parts; e.g. particles_set_pair.py:95 *)
Definition chain_is (t : target) (o : obr) (a : Z) (ms : list (list Z)) (d : Z) (c : cbr) : bool :=
  match t with
  | TInv (IChain o' a' es' d' c') =>
      (obr_eqb o o' && Z.eqb a a' && cbr_eqb c c' && Z.eqb d d'
       && match rmapM labels es' with Ok ms' => if list_eq_dec (list_eq_dec Z.eq_dec) ms ms' then true else false | Err _ => false end)%bool
  | _ => false
  end.
(* particles_set_pair.py:909-933 *)
Definition delta_is (t : target) (cs : list (list Z)) : bool :=
  match t, cs with
  | TInv (IDelta3 l), [l'] => if list_eq_dec Z.eq_dec l l' then true else false
  | TInv (IDelta ls), _ :: _ :: _ => if list_eq_dec (list_eq_dec Z.eq_dec) ls cs then true else false
  | _, _ => false
  end.

Section More.
Context {K : Fld}.
Open Scope fld_scope.
Open Scope mon_scope.
Context (cv : convention) (so : list Z -> list Z).
(* expression_for_a and expression_for_e, DoubleCollinearLimit_D_and_S_a.py and _e.py: 250 kB of
   closed formulas, an argument here; the formulas themselves are in Closed.v *)
Context (expr_a expr_e : list K -> K -> K -> result K).

(* fix_mom_cons of the three numbers; particles_set_pair.py:274, 520, 579 *)
Definition fix_how (h : Z * Z * Z) : QM (K := K) unit := let '(p, q, ax) := h in fixm cv p q ax.

(* particles_set_pair.py:210-274 *)
Definition pair_two_NB (angle : bool) (a b : Z) (v1 : K) (x : chain) (v2 : K) : QM pair_ret :=
  s <- get ;; pl <- lift (plan_two_NB so (length s) angle a b x) ;;
  let '(x, mode, h) := pl in
  set_only cv so (two angle a b) v1 1 ;;
  set_only cv so (chain_target x) v2 mode ;;
  (match h with Some h => fix_how h | None => ret tt end) ;;
  ret PNone.

(* particles_set_pair.py:497-518: <A|B+C|A] and <B|A+C|B] through |A>; the result is the
   new |A> *)
Definition formula3 (c1 d1 a6 b6 c6 d6 a2 b2 c2 d2 X Y : K) : result (v2 K) :=
  rbind (divE (- ((a6 * c6 * d1 - a6 * c1 * d6) * X) - (a2 * c2 * d1 + a6 * c6 * d1 - a2 * c1 * d2 - a6 * c1 * d6) *
               (a6 * b2 * c6 * d2 - a2 * b6 * c6 * d2 - a6 * b2 * c2 * d6 + a2 * b6 * c2 * d6 - Y))
              (- ((a2 * c2 * d1 + a6 * c6 * d1 - a2 * c1 * d2 - a6 * c1 * d6) * (- (b6 * c6 * d1) + b6 * c1 * d6)) +
               (a6 * c6 * d1 - a6 * c1 * d6) * (- (b2 * c2 * d1) - b6 * c6 * d1 + b2 * c1 * d2 + b6 * c1 * d6))) (fun a =>
  rbind (divE (a6 * (b2 * b2) * c2 * c6 * d1 * d2 - a2 * b2 * b6 * c2 * c6 * d1 * d2 + a6 * b2 * b6 * (c6 * c6) * d1 * d2 - a2 * (b6 * b6) * (c6 * c6) * d1 * d2 -
               a6 * (b2 * b2) * c1 * c6 * (d2 * d2) + a2 * b2 * b6 * c1 * c6 * (d2 * d2) -
               a6 * (b2 * b2) * (c2 * c2) * d1 * d6 + a2 * b2 * b6 * (c2 * c2) * d1 * d6 - a6 * b2 * b6 * c2 * c6 * d1 * d6 + a2 * (b6 * b6) * c2 * c6 * d1 * d6 +
               a6 * (b2 * b2) * c1 * c2 * d2 * d6 - a2 * b2 * b6 * c1 * c2 * d2 * d6 -
               a6 * b2 * b6 * c1 * c6 * d2 * d6 + a2 * (b6 * b6) * c1 * c6 * d2 * d6 + a6 * b2 * b6 * c1 * c2 * (d6 * d6) - a2 * (b6 * b6) * c1 * c2 * (d6 * d6) +
               b6 * c6 * d1 * X - b6 * c1 * d6 * X - b2 * c2 * d1 * Y - b6 * c6 * d1 * Y + b2 * c1 * d2 * Y +
               b6 * c1 * d6 * Y)
              ((- (a6 * b2) + a2 * b6) * (c2 * d1 - c1 * d2) * (c6 * d1 - c1 * d6))) (fun b =>
  Ok (V2 (- a) b))).
(* restoring momentum conservation or giving up, particles_set_pair.py:519-522, 578-581 *)
Definition restore3 (x y : br3) : QM (K := K) unit :=
  s <- get ;; h <- lift (how3 so (length s) x y) ;;
  match h with Some h => fix_how h | None => raise MyException end.
(* particles_set_pair.py:496-523; l3B_0[1] == l3B_1[0] decides which label is B *)
Definition set_formula3 (x y : br3) (v1 v2 : K) : QM (K := K) unit :=
  A <- pyget (all3 x) 0 ;; x1 <- pyget (all3 x) 1 ;; x2 <- pyget (all3 x) 2 ;; y0 <- pyget (all3 y) 0 ;;
  let '(B, C) := if Z.eqb x1 y0 then (x1, x2) else (x2, x1) in
  qA <- spinors A ;; qB <- spinors B ;; qC <- spinors C ;;
  v <- lift (formula3 (e0 (snd qA)) (e1 (snd qA)) (e0 (fst qB)) (e1 (fst qB)) (e0 (snd qB)) (e1 (snd qB))
                      (e0 (fst qC)) (e1 (fst qC)) (e0 (snd qC)) (e1 (snd qC)) v1 v2) ;;
  on A (assign_r_sp_d v) ;; restore3 x y.
(* the string of a three-bracket, SetPair.three *)
Definition target3 (x : br3) : target := let '(an, s, m, e) := x in three an s m e.
(* particles_set_pair.py:372-581.  The call with exchanged arguments (560) comes back to this
   function; [fuel] bounds the depth of python's recursion. *)
Fixpoint pair_3B_3B (fuel : nat) (x : br3) (v1 : K) (y : br3) (v2 : K) : QM pair_ret :=
  match fuel with
  | O => raise RecursionError
  | S fuel' =>
      s <- get ;; xy <- lift (flips3 so (length s) x y) ;;
      match after3 (fst xy) (snd xy) with
      | P3Formula x y => set_formula3 x y v1 v2 ;; ret PNone
      | P3Swap x y => pair_3B_3B fuel' y v2 x v1
      | P3Set x y mode =>
          (* the shorter string first, particles_set_pair.py:571-573 *)
          let longer := Nat.ltb (length (all3 y)) (length (all3 x)) in
          let '(x, v1, y, v2) := if longer then (y, v2, x, v1) else (x, v1, y, v2) in
          set_only cv so (target3 x) v1 1 ;;
          mode <- bound mode ;;
          set_only cv so (target3 y) v2 mode ;;
          restore3 x y ;; ret PNone
      end
  end.

(* particles_set_pair.py:673-783 *)
Definition pair_3B_D (x : br3) (v1 : K) (t2 : target) (v2 : K) : QM pair_ret :=
  al <- delta_lists t2 ;;
  r <- lift (reorder x (fst al) (snd al)) ;;
  r <- (match r with
        | Some r => ret (Some r)
        | None => s <- get ;; x' <- lift (flip3 so (length s) x) ;; lift (reorder x' (fst al) (snd al))
        end) ;;
  match r with
  | None => ret PNotImplemented
  | Some (x, t2) =>
      let '(an, s, m, e) := x in
      al <- delta_lists t2 ;;
      set_only cv so (target3 x) v1 1 ;;
      l0 <- pyget (snd al) 0 ;;
      (if an : bool then
         k <- pyget l0 0 ;; set_only cv so t2 v2 (if zmem k (m ++ [e]) then 3 else 2)%Z
       else set_only cv so t2 v2 1%Z) ;;
      l2 <- pyget (snd al) 2 ;; p <- pyget l2 0 ;; q <- pyget l2 1 ;;
      fixm cv p q (if an then 1 else 2)%Z ;; ret PNone
  end.

(* a, b, c, d of one leg, particles_set_pair.py:888-895 *)
Definition parts (q : v2 K * v2 K) : list K := [e0 (fst q); e1 (fst q); e0 (snd q); e1 (snd q)].
(* particles_set_pair.py:833-904 *)
Definition pair_S_D (S : list Z) (v1 : K) (t2 : target) (v2 : K) : QM pair_ret :=
  al <- delta_lists t2 ;; s <- get ;;
  r <- (match corners_in S (snd al) with
        | Some r => ret (Some r)
        | None => S' <- lift (complementary so (length s) S) ;; ret (corners_in S' (snd al))
        end) ;;
  match r with
  | None => ret PNotImplemented
  | Some (i, j) =>
      li <- pyget (snd al) i ;; lj <- pyget (snd al) j ;;
      A <- pyget li 0 ;; B <- pyget li 1 ;; C <- pyget lj 0 ;; D <- pyget lj 1 ;;
      le <- pyget (map snd (filter (fun x => negb (Nat.eqb (fst x) i || Nat.eqb (fst x) j)) (combine (seq 0 (length (snd al))) (snd al)))) 0 ;;
      E <- pyget le 0 ;; F <- pyget le 1 ;;
      qA <- spinors A ;; qB <- spinors B ;; qC <- spinors C ;; qD <- spinors D ;;
      let args := flat_map parts [qA; qB; qC; qD] in
      a <- lift (expr_a args v1 v2) ;; e <- lift (expr_e args v1 v2) ;;
      on A (assign_r_sp_d (V2 a (e1 (fst qA)))) ;;
      on B (assign_r_sp_d (V2 e (e1 (fst qB)))) ;;
      fixm cv E F 1 ;; ret PNone
  end.

(* one row of a table of strings: two strings set one after the other, then momentum conservation;
   particles_set_pair.py:96-99, 908-912 *)
Definition table_row (t1 : target) (w1 : K) (m1 : Z) (t2 : target) (w2 : K) (m2 : Z) (p q : Z) : QM pair_ret :=
  set_only cv so t1 w1 m1 ;; set_only cv so t2 w2 m2 ;; fixm cv p q 1 ;; ret PNone.
(* '<a|...|a>' with two sums *)
Definition four (a : Z) (m1 m2 : list Z) : target := chain_target (OAng, a, [m1; m2], a, CAng).
(* particles_set_pair.py:95-100 *)
Definition pair_NB_NB (t1 : target) (v1 : K) (t2 : target) (v2 : K) : QM pair_ret :=
  if (chain_is t1 OAng 7 [[3; 4]; [5; 6]] 7 CAng && chain_is t2 OSq 7 [[3; 4]; [5; 6]] 7 CSq)%Z%bool
  then table_row t2 v2 1 t1 v1 1 1 2 else ret PNotImplemented.
(* particles_set_pair.py:907-938 *)
Definition pair_NB_D (t1 : target) (v1 : K) (t2 : target) (v2 : K) : QM pair_ret :=
  (let D l := TInv (IDelta3 l) in
   let DD l := TInv (IDelta l) in
   if (chain_is t1 OAng 1 [[3; 4]; [5; 6]] 1 CAng && delta_is t2 [[7; 3; 5]])%bool then
     table_row (D [3; 5; 7]) v2 1 (four 1 [3; 4] [5; 6]) v1 1 7 2
   else if (chain_is t1 OAng 2 [[1; 7]; [3; 4]] 2 CAng && delta_is t2 [[7; 3; 5]])%bool then
     table_row (four 2 [1; 7] [3; 4]) v1 1 (D [7; 3; 5]) v2 6 5 6
   else if (chain_is t1 OAng 7 [[3; 4]; [5; 6]] 7 CAng && delta_is t2 [[7; 3; 5]])%bool then
     table_row (D [3; 5; 7]) v2 1 (four 7 [3; 4] [5; 6]) v1 1 1 2
   else if (chain_is t1 OAng 7 [[1; 2]; [5; 6]] 7 CAng && delta_is t2 [[1; 2]; [3; 4; 7]; [5; 6]])%bool then
     table_row (DD [[5; 6]; [1; 2]; [3; 4; 7]]) v2 1 (four 7 [1; 2] [5; 6]) v1 1 3 4
   else if (chain_is t1 OSq 7 [[1; 2]; [5; 6]] 7 CSq && delta_is t2 [[1; 2]; [3; 4; 7]; [5; 6]])%bool then
     table_row (DD [[5; 6]; [1; 2]; [3; 4; 7]]) v2 1 (chain_target (OSq, 7, [[1; 2]; [5; 6]], 7, CSq)) v1 1 3 4
   else if (chain_is t1 OAng 3 [[5; 6]; [1; 2]] 3 CAng && delta_is t2 [[1; 2]; [3; 4; 7]; [5; 6]])%bool then
     table_row (DD [[5; 6]; [1; 2]; [3; 4; 7]]) v2 1 (four 3 [5; 6] [1; 2]) v1 1 7 4
   else if (chain_is t1 OAng 7 [[3; 4]; [5; 6]] 7 CAng && delta_is t2 [[1; 3; 5]])%bool then
     table_row (DD [[1; 2]; [3; 4]; [5; 6; 7]]) v2 1 (four 7 [3; 4] [1; 2]) v1 1 5 6
   else ret PNotImplemented)%Z.

(* the pair setters that set_pair_inner is given as a parameter.  Simplifications: see the
   head of the file; a minus sign in a three-bracket is a ValueError. *)
Definition the_others (fuel : nat) (t1 : target) (v1 : K) (t2 : target) (v2 : K) : QM pair_ret :=
  match t1, t2 with
  | TInv (IA2 a b), TInv (IChain o s es e c) =>
      if forallb (fun e => forallb fst (snd e)) es then ms <- lift (rmapM labels es) ;; pair_two_NB true a b v1 (o, s, ms, e, c) v2
      else raise MyException
  | TInv (IS2 a b), TInv (IChain o s es e c) =>
      if forallb (fun e => forallb fst (snd e)) es then ms <- lift (rmapM labels es) ;; pair_two_NB false a b v1 (o, s, ms, e, c) v2
      else raise MyException
  | TInv (IChain o s es e c), TInv (IChain o' s' es' e' c') =>
      match kind_of t1, es, kind_of t2, es' with
      | K3B, [m], K3B, [m'] =>
          m <- lift (labels m) ;; m' <- lift (labels m') ;;
          pair_3B_3B fuel (is_angle o, s, m, e) v1 (is_angle o', s', m', e') v2
      | _, _, _, _ => pair_NB_NB t1 v1 t2 v2
      end
  | TInv (IChain o s es e c), _ =>
      match kind_of t1, es with
      | K3B, [m] => m <- lift (labels m) ;; pair_3B_D (is_angle o, s, m, e) v1 t2 v2
      | _, _ => pair_NB_D t1 v1 t2 v2
      end
  | TInv (IS l), _ => pair_S_D l v1 t2 v2
  | _, _ => raise TypeError
  end.
(* particles_set_pair.py:23-40 with every pair setter *)
Definition set_pair_all (fuel : nat) (t1 : target) (v1 : K) (t2 : target) (v2 : K) : QM unit :=
  set_pair cv so (the_others fuel) fuel t1 v1 t2 v2.
End More.
