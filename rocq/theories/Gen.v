(* lips/invariants.py: the generation of the strings for n particles.

   Strings of the kinds ⟨i|j⟩, [i|j], s_, Δ_, Ω_, Π_ and tr5_ are built here as code points,
   operation by operation.  Brackets with a middle part are kept as data until the end
   ([brk], rendered by [render]); with labels of one digit (n <= 9) the operations of the
   code on their strings (pNB.search, split, replace, comparison character by character)
   read off exactly these data.  A label is an integer here and a string in the code.

   Iterating over a python set of strings has no fixed order (it depends on PYTHONHASHSEED);
   the order is the parameter [ord]. *)
From Coq Require Import Ascii String.
From Coq Require Import List ZArith Bool Lia.
From Verif Require Import Base Symm Str.
Import ListNotations.
Open Scope Z_scope.
Open Scope res_scope.

(* python's range(a, b); e.g. invariants.py:172-175 *)
Definition zrange (a b : Z) : list Z := map (fun k => a + Z.of_nat k) (seq 0 (Z.to_nat (b - a))).
(* x in l, for labels; e.g. invariants.py:642-650 *)
Definition memz (x : Z) (l : list Z) : bool := existsb (Z.eqb x) l.
(* itertools.combinations(l, k); invariants.py:377, 636 *)
Fixpoint combinations {A} (k : nat) (l : list A) : list (list A) :=
  match k, l with
  | O, _ => [[]]
  | S _, [] => []
  | S k', x :: l' => map (cons x) (combinations k' l') ++ combinations k l'
  end.
(* sep.join(parts); e.g. invariants.py:207-212 *)
Fixpoint joinp (sep : pystr) (parts : list pystr) : pystr :=
  match parts with [] => [] | [p] => p | p :: ps => p ++ sep ++ joinp sep ps end.

(* the code points of ⟨ ⟩ [ ] | and of the Greek letters; invariants.py:178 *)
Definition LANG : Z := 10216.
(* invariants.py:184 *)
Definition RANG : Z := 10217.
(* invariants.py:180 *)
Definition LSQ : Z := 91.
(* invariants.py:186 *)
Definition RSQ : Z := 93.
(* invariants.py:178-187 *)
Definition BAR : Z := 124.
(* invariants.py:355 *)
Definition DELTA : Z := 916.
(* invariants.py:366-369 *)
Definition OMEGA : Z := 937.
(* invariants.py:156 *)
Definition PI : Z := 928.
Definition USCORE : Z := 95.

(* ---- invs_2: all_strings(n, "2"), invariants.py:172-191 with nbr_brks = 2 (the loop over
   the middle parts is empty) ---- *)
Definition two_string (counter first last : Z) : pystr :=
  let start := (if counter =? 0 then [LANG] else [LSQ]) ++ dec first ++ [BAR] in
  let end_ := [BAR] ++ dec last ++ (if counter =? 0 then [RANG] else [RSQ]) in
  start ++ tl end_.
(* pA2.match, invariants.py:18; a trailing newline, which $ allows, does not occur *)
Definition pA2_match (t : pystr) : bool :=
  match t with
  | [a; i; b; j; c] => (a =? LANG) && is_digit i && (b =? BAR) && is_digit j && (c =? RANG)
  | _ => false
  end.
Definition gen_2 (n : Z) : list pystr :=
  let result := flat_map (fun first => flat_map (fun last =>
      if first >? last then [] else flat_map (fun counter => if first <? last then [two_string counter first last] else []) [0; 1])
    (zrange 1 (n + 1))) (zrange 1 (n + 1)) in
  if n =? 4 then filter pA2_match result else result.   (* invariants.py:235-236 *)

(* ---- invs_s: all_strings(n, "s") and recurse_s_ijk_gen, invariants.py:136-140, 331-342.
   [m] is positive in every call of the code. ---- *)
Definition s_loop (n : Z) (inner : Z -> pystr -> list pystr) : list Z -> pystr -> list pystr :=
  fix loop (js : list Z) (string : pystr) : list pystr :=
    match js with
    | [] => []
    | j :: js' =>
        if (n mod 2 =? 0) && (Z.of_nat (length string) =? n / 2 + 1) && (j =? n) then []
        else let string := string ++ dec j in inner j string ++ loop js' (removelast string)
    end.
(* invariants.py:331-342 *)
Fixpoint recurse_s (m : nat) (n i : Z) (string : pystr) {struct m} : list pystr :=
  match m with
  | O => []
  | S m' => s_loop n (fun j string => match m' with O => [string] | S _ => recurse_s m' n j string end) (zrange (i + 1) (n + 1)) string
  end.
Definition gen_s (n : Z) : list pystr := flat_map (fun m => recurse_s (Z.to_nat m) n 0 (lit "s_")) (zrange 3 (n / 2 + 1)).

(* ---- invs_D: generate_D_ijk, invariants.py:142-146, 348-357 ---- *)
Definition triple_string (letter i j k : Z) : pystr := [letter; USCORE] ++ dec i ++ dec j ++ dec k.
(* invariants.py:348-357 *)
Definition generate_D (n : Z) : list pystr :=
  flat_map (fun i => flat_map (fun j => let start1 := (- j) mod n + 1 in let start2 := i - j + 1 in
      map (fun k => let start3 := start2 + k in triple_string DELTA start1 start2 start3) (zrange 2 (n - i - 1)))
    (zrange 0 i)) (zrange 2 (n - 3)).
Definition gen_D (n : Z) : list pystr := if n >=? 6 then generate_D n else [].
(* ---- invs_O and invs_P: generate_O_ijk, invariants.py:148-158, 363-370.  The strings of
   generate_D have at least five characters. ---- *)
Definition chr (t : pystr) (k : nat) : Z := nth k t 0.
(* invariants.py:363-370 *)
Definition generate_O (n : Z) : list pystr :=
  flat_map (fun delta => let d := skipn 2 delta in
    [[OMEGA; USCORE; chr d 0; chr d 1; chr d 2]; [OMEGA; USCORE; chr d 1; chr d 2; chr d 0]; [OMEGA; USCORE; chr d 2; chr d 0; chr d 1]]) (generate_D n).
(* invariants.py:148-152 *)
Definition gen_O (n : Z) : list pystr := if n =? 6 then generate_O n else [].
Definition gen_P (n : Z) : list pystr := if n =? 6 then map (map (fun c => if c =? OMEGA then PI else c)) (generate_O n) else [].
(* ---- invs_tr5: generate_tr5_ijkls, invariants.py:160-164, 376-378: the combinations are
   of the characters of the joined string ---- *)
Definition gen_tr5 (n : Z) : list pystr :=
  if n >=? 5 then map (fun e => lit "tr5_" ++ e) (combinations 4 (concat (map dec (zrange 1 n)))) else [].

(* ---- brackets with a middle part ---- *)
(* opening angle or square, first label, middle parts, last label *)
Record brk := Brk { b_ang : bool; b_i : Z; b_mid : list (list Z); b_j : Z }.
(* the string: invariants.py:178-187, 207-212, 232-233; an odd number of middle parts ends
   with the other bracket *)
Definition render_mid (m : list Z) : pystr := lit "(" ++ joinp (lit "+") (map dec m) ++ lit ")".
(* invariants.py:178-187, 232-233 *)
Definition render (b : brk) : pystr :=
  (if b_ang b then [LANG] else [LSQ]) ++ dec (b_i b) ++ [BAR] ++ joinp [BAR] (map render_mid (b_mid b)) ++ [BAR] ++ dec (b_j b)
  ++ (if Bool.eqb (Nat.even (length (b_mid b))) (b_ang b) then [RANG] else [RSQ]).
(* == of parts, invariants.py:665-672 *)
Fixpoint zlist_eqb (a b : list Z) : bool :=
  match a, b with [], [] => true | x :: a', y :: b' => (x =? y) && zlist_eqb a' b' | _, _ => false end.
(* invariants.py:214-216 *)
Fixpoint mids_eqb (a b : list (list Z)) : bool :=
  match a, b with [], [] => true | x :: a', y :: b' => zlist_eqb x y && mids_eqb a' b' | _, _ => false end.
(* == of the strings; invariants.py:295-324 *)
Definition brk_eqb (a b : brk) : bool := Bool.eqb (b_ang a) (b_ang b) && (b_i a =? b_i b) && (b_j a =? b_j b) && mids_eqb (b_mid a) (b_mid b).
(* list.remove(x): the first occurrence, ValueError if there is none *)
Fixpoint remove1 {A} (eqb : A -> A -> bool) (x : A) (l : list A) : result (list A) :=
  match l with
  | [] => Err ValueError
  | y :: l' => if eqb y x then Ok l' else r <-? remove1 eqb x l' ;; Ok (y :: r)
  end.
(* _complementary, invariants.py:617-623, for labels between 1 and n *)
Definition complementary (n : Z) (l : list Z) : list Z := filter (fun x => negb (memz x l)) (zrange 1 (n + 1)).

(* "if same length remove repeated ones", invariants.py:665-672: the for loop runs over the
   list it removes from; [i] is the position of the iterator *)
Fixpoint remove_partners (fuel : nat) (partner : list Z -> list Z) (i : nat) (comb : list (list Z)) : result (list (list Z)) :=
  match fuel with
  | O => Ok comb
  | S fuel => match nth_error comb i with
              | None => Ok comb
              | Some e => comb <-? remove1 zlist_eqb (partner e) comb ;; remove_partners fuel partner (S i) comb
              end
  end.
(* _inner_bracket, invariants.py:629-676; None is python's None.  The while loop of
   641-651 is a filter: the entries are different, so remove(comb[i]) removes the entry i. *)
Definition inner_bracket (n length_ adj1 adj2 : Z) : result (option (list (list Z))) :=
  let comb := combinations (Z.to_nat length_) (zrange 1 (n + 1)) in
  let comb := filter (fun e => negb (memz adj1 e) && negb (memz adj2 e)) comb in
  let comp_length := n - length_ in
  let comp_length :=
    if negb (adj1 =? 0) && negb (adj2 =? 0) then (if adj1 =? adj2 then comp_length - 1 else comp_length - 2)
    else if negb (adj1 =? 0) || negb (adj2 =? 0) then comp_length - 1 else comp_length in
  if comp_length =? length_ then
    r <-? remove_partners (length comb) (fun e => filter (fun x => negb (x =? adj1) && negb (x =? adj2)) (complementary n e)) 0 comb ;; Ok (Some r)
  else if comp_length <? length_ then Ok None else Ok (Some comb).

(* invariants.py:218-229: is the pair of middle parts skipped?  The characters at the
   positions 1, 3, ... of both strings are compared as numbers *)
Fixpoint needs_skipping (m m' : list Z) : bool :=
  match m, m' with
  | x :: r, x' :: r' => if x >? x' then true else if x <? x' then false else needs_skipping r r'
  | _, _ => false
  end.
(* invariants.py:196-203 *)
Definition comb_for (n nbr m length_ first last : Z) : result (option (list (list Z))) :=
  if (m =? 1) && (nbr =? 3) then inner_bracket n length_ first last
  else if (m =? 1) && (nbr >? 3) then inner_bracket n length_ first 0
  else if (m =? nbr - 2) && (nbr >? 3) then inner_bracket n length_ last 0
  else inner_bracket n length_ 0 0.
(* invariants.py:206-230: what one element of comb adds; the comparison is for two middle
   parts, so that middle is one bracket *)
Definition extend (m first last : Z) (middles : list (list (list Z))) (e : list Z) : list (list (list Z)) :=
  if m =? 1 then [[e]]
  else flat_map (fun middle =>
         if mids_eqb middle [e] then []
         else if (m =? 2) && (first =? last) && needs_skipping (hd [] middle) e then [] else [middle ++ [e]]) middles.
(* the loop over the lengths, invariants.py:195-230, with the break at None *)
Fixpoint lengths_loop (n nbr m first last : Z) (middles : list (list (list Z))) (ls : list Z) : result (list (list (list Z))) :=
  match ls with
  | [] => Ok []
  | l :: ls' => c <-? comb_for n nbr m l first last ;;
                match c with
                | None => Ok []
                | Some comb => r <-? lengths_loop n nbr m first last middles ls' ;; Ok (flat_map (extend m first last middles) comb ++ r)
                end
  end.
(* the loop over the number of middle parts, invariants.py:193-231 *)
Fixpoint middles_loop (n nbr first last : Z) (ms : list Z) (middles : list (list (list Z))) : result (list (list (list Z))) :=
  match ms with
  | [] => Ok middles
  | m :: ms' => middles <-? lengths_loop n nbr m first last middles (zrange 2 (n / 2 + 1)) ;; middles_loop n nbr first last ms' middles
  end.
(* invariants.py:172-233 for nbr_brks = 3 and 4 *)
Definition gen_N_at (n nbr first last : Z) : result (list brk) :=
  if (nbr mod 2 =? 0) && (first >? last) then Ok []
  else ms <-? middles_loop n nbr first last (zrange 1 (nbr - 1)) [] ;;
       Ok (flat_map (fun ang => map (fun mid => Brk ang first mid last) ms) (if nbr mod 2 =? 0 then [true; false] else [true])).
(* invariants.py:172-233 *)
Definition gen_N (n nbr : Z) : result (list brk) :=
  ls <-? rmapM (fun first => rmap (@concat brk) (rmapM (gen_N_at n nbr first) (zrange 1 (n + 1)))) (zrange 1 (n + 1)) ;; Ok (concat ls).

(* ---- four brackets ---- *)
(* set operations; set.issubset, invariants.py:255-280, 297-316 *)
Definition subset (a b : list Z) : bool := forallb (fun x => memz x b) a.
(* == of sets, invariants.py:254-258 *)
Definition set_eqb (a b : list Z) : bool := subset a b && subset b a.
(* - of sets, invariants.py:255-280, 297-316 *)
Definition set_diff (a b : list Z) : list Z := filter (fun x => negb (memz x b)) a.
(* the two middle parts; invariants.py:244-249 *)
Definition mid0 (b : brk) : list Z := nth 0 (b_mid b) [].
Definition mid1 (b : brk) : list Z := nth 1 (b_mid b) [].
(* alt, invariants.py:250-253: the labels in neither the part nor the label beside it *)
Definition alt0 (n : Z) (b : brk) : list Z := complementary n (b_i b :: mid0 b).
(* invariants.py:250-253 *)
Definition alt1 (n : Z) (b : brk) : list Z := complementary n (b_j b :: mid1 b).
(* len(l) == 1 and l[0] == d *)
Definition only (l : list Z) (d : Z) : bool := match l with [x] => x =? d | _ => false end.
(* the three conditions of invariants.py:254-280 *)
Definition factorises (n : Z) (b : brk) : bool :=
  let a := b_i b in let d := b_j b in
  let b0 := mid0 b in let b1 := mid1 b in let a0 := alt0 n b in let a1 := alt1 n b in
  (set_eqb b0 b1 || set_eqb b0 a1 || set_eqb a0 b1 || set_eqb a0 a1)
  || ((a =? d) && ((subset b0 b1 && (length (set_diff b1 b0) =? 1)%nat) || (subset b0 a1 && (length (set_diff a1 b0) =? 1)%nat)
                   || (subset b1 b0 && (length (set_diff b0 b1) =? 1)%nat) || (subset b1 a0 && (length (set_diff a0 b1) =? 1)%nat)))
  || (only (set_diff b0 b1) d || only (set_diff b0 a1) d || only (set_diff a0 b1) d || only (set_diff a0 a1) d
      || only (set_diff b1 b0) a || only (set_diff b1 a0) a || only (set_diff a1 b0) a || only (set_diff a1 a0) a).
(* invariants.py:239-281.  The condition is on the entry itself and every entry is visited,
   so removing first occurrences is a filter. *)
Definition drop_products (n : Z) (l : list brk) : list brk := filter (fun b => negb (factorises n b)) l.

(* near += [x + 1, x - 1] and the ends, e.g. invariants.py:510-521 *)
Definition nearby (n x : Z) : list Z := [x + 1; x - 1] ++ (if x =? n then [1] else []) ++ (if x =? 1 then [n] else []).
Definition grow (n x : Z) (near : list Z) : list Z := if memz x near then near ++ nearby n x else near.
(* Brackets4IsIndividuallyNeighbouring, invariants.py:499-552; only the first two labels of
   a part are looked at, and there are at least two *)
Definition part_neighbouring (n a : Z) (p : list Z) : bool :=
  let x := nth 0 p 0 in let y := nth 1 p 0 in
  let near := [a] ++ nearby n a in
  let near := grow n y (grow n x near) in
  let near := grow n y (grow n x near) in
  memz x near && memz y near.
(* invariants.py:499-552 *)
Definition neighbouring (n : Z) (b : brk) : bool := part_neighbouring n (b_i b) (mid0 b) && part_neighbouring n (b_j b) (mid1 b).

(* position in a list, list.index; invariants.py:308, 323 *)
Fixpoint index_of (x : brk) (l : list brk) : nat :=
  match l with [] => 0%nat | y :: l' => if brk_eqb y x then 0%nat else S (index_of x l') end.
(* in, invariants.py:306, 323 *)
Definition memb (x : brk) (l : list brk) : bool := existsb (fun y => brk_eqb y x) l.
Section Order.
(* the order in which the set built from the labels [l] in the branch [branch] for the
   entry [b] is iterated *)
Variable ord : brk -> bool -> list Z -> list Z.
(* the body of the loop, invariants.py:284-324 *)
Definition dedupe_step (n : Z) (all : list brk) (i : nat) (b : brk) (result : list brk) : Base.result (list brk) :=
  if negb (b_i b =? b_j b) then Ok result
  else
    let b0 := mid0 b in let b1 := mid1 b in let a0 := alt0 n b in let a1 := alt1 n b in
    result <-? (if subset b0 a1 then
                  let equal := Brk (b_ang b) (b_i b) [ord b true b0; ord b true (set_diff a1 b0)] (b_j b) in
                  if memb equal result then
                    if neighbouring n equal && neighbouring n b then (if (i <? index_of equal all)%nat then remove1 brk_eqb equal result else Ok result)
                    else if neighbouring n equal && negb (neighbouring n b) then remove1 brk_eqb b result
                    else if negb (neighbouring n equal) && negb (neighbouring n b) then remove1 brk_eqb equal result
                    else Ok result
                  else Ok result
                else Ok result) ;;
    if subset b1 a0 then
      let equal := Brk (b_ang b) (b_i b) [ord b false (set_diff a0 b1); ord b false b1] (b_j b) in
      if memb equal result && (i <? index_of equal all)%nat then remove1 brk_eqb equal result else Ok result
    else Ok result.
(* invariants.py:283-324 *)
Fixpoint dedupe_loop (n : Z) (all : list brk) (i : nat) (todo : list brk) (result : list brk) : Base.result (list brk) :=
  match todo with
  | [] => Ok result
  | b :: todo' => result <-? dedupe_step n all i b result ;; dedupe_loop n all (S i) todo' result
  end.
(* all_strings(n, "4"); invariants.py:172-326 *)
Definition gen_4 (n : Z) : Base.result (list brk) :=
  raw <-? gen_N n 4 ;; let l := drop_products n raw in dedupe_loop n l 0 l l.
End Order.

(* Purge4Brackets, invariants.py:437-493.  len(entry) > 3 is about the string of a part.
   With FurtherRestrict4Brackets=False the parts are map objects and bc[j][0] raises. *)
Definition minimal (b : brk) : bool := forallb (fun p => (length (joinp (lit "+") (map dec p)) <=? 3)%nat) (b_mid b).
(* invariants.py:437-493 *)
Definition purge4 (n : Z) (further : bool) (l : list brk) : result (list brk) :=
  if further then Ok (filter (fun b => minimal b && neighbouring n b) l)
  else if existsb minimal l then Err TypeError else Ok (filter minimal l).

(* ---- three brackets ---- *)
(* Brackets3NeedsToBeRemoved, invariants.py:588-611 *)
Definition growing (n x : Z) (near : list Z) : list Z := if memz x near then near ++ [x] ++ nearby n x else near.
Definition needs_removing (n a : Z) (bc : list Z) (d : Z) : bool :=
  let step near := fold_left (fun near x => growing n x near) bc (growing n d near) in
  let near := Nat.iter (S (length bc)) step ([a] ++ nearby n a) in
  negb (memz d near) || negb (forallb (fun x => memz x near) bc).
(* Purge3Brackets, invariants.py:556-582 *)
Definition purge3 (n : Z) (l : list brk) : list brk :=
  filter (fun b => negb (needs_removing n (b_i b) (mid0 b) (b_j b)
                         && needs_removing n (b_i b) (complementary n (mid0 b ++ [b_i b; b_j b])) (b_j b))) l.

(* ---- five brackets ---- *)
(* CheckIfNeighbouring, invariants.py:413-431; the middle part is not empty.  The whole of
   [nearby] is appended in the same order as in the code. *)
Definition check_neighbouring (n : Z) (middle : list Z) : bool :=
  let a := hd 0 middle in
  let step near := fold_left (fun near x => grow n x near) middle near in
  let near := Nat.iter (length middle) step ([a; a - 1; a + 1] ++ (if a =? n then [1] else []) ++ (if a =? 1 then [n] else [])) in
  forallb (fun x => memz x near) middle.
Definition rotate1 (l : list Z) : list Z := match l with [] => [] | x :: l' => l' ++ [x] end.
(* generate_5Brackets, invariants.py:166-170, 384-407; [iset] is the order of a set of
   integers, list(set(particles) - set(middle1) - set(middle2)) *)
Definition generate_5 (iset : list Z -> list Z) (n : Z) : list brk :=
  flat_map (fun i =>
    let particles := filter (fun x => negb (x =? i)) (zrange 1 (n + 1)) in
    flat_map (fun kk =>
      let particles := Nat.iter kk rotate1 particles in
      flat_map (fun j =>
        let middle1 := firstn (Z.to_nat j) particles in
        if negb (check_neighbouring n middle1) then []
        else flat_map (fun k =>
               let middle2 := firstn (Z.to_nat k) (skipn (Z.to_nat j) particles) in
               if negb (check_neighbouring n middle2) then []
               else let middle3 := iset (set_diff (set_diff particles middle1) middle2) in
                    if negb (check_neighbouring n middle3) then [] else [Brk true i [middle1; middle2; middle3] i])
               (zrange 2 (n - 2 - j)))
        (zrange 2 (n - 4)))
      (seq 0 (length particles)))
    (zrange 1 (n + 1)).
Definition gen_5 (iset : list Z -> list Z) (n : Z) : list brk := if n >=? 7 then generate_5 iset n else [].

(* ---- Invariants.GenerateFromScratch, invariants.py:68-103 ---- *)
Record options := Opts { o_no_cached : bool; o_no_hard : bool; o_r3 : bool; o_r4 : bool; o_f4 : bool }.
(* the defaults of __init__, invariants.py:26 *)
Definition default_options : options := Opts false false true true true.
Record invs := Invs { invs_2 : list pystr; invs_3 : list pystr; invs_4 : list pystr; invs_5 : list pystr; invs_s : list pystr;
                      invs_D : list pystr; invs_O : list pystr; invs_P : list pystr; invs_tr5 : list pystr }.
(* what is outside: the orders of sets, and for each of the nine extra strings the numerical
   test with a random point (invariants.py:93-99): added, not added, or an exception *)
Record env := Env { e_ord : brk -> bool -> list Z -> list Z; e_iset : list Z -> list Z; e_test : pystr -> result bool }.
(* invariants.py:92 *)
Definition hard_coded : list pystr :=
  map render [Brk true 2 [[1; 3]] 5; Brk true 3 [[1; 5]] 4; Brk true 6 [[1; 3]] 4; Brk true 6 [[2; 4]] 3; Brk true 4 [[3; 5]] 1;
              Brk true 2 [[1; 4]] 5; Brk true 4 [[2; 5]] 1; Brk true 6 [[2; 5]] 3; Brk true 3 [[4; 6]] 1].
(* a literal of labels, with | between corners: Δ_15|26|34 *)
Definition delta_lit (s : string) : pystr := [DELTA; USCORE] ++ lit s.
(* The recursive call of invariants.py:90-91 for n = 6 makes the same lists again, for the
   numerical test only; it fails only where the first lines fail, for the same n and options,
   so it is part of [e_test] here. *)
Definition from_scratch (v : env) (n : Z) (o : options) : result invs :=
  three <-? gen_N n 3 ;;
  four <-? gen_4 (e_ord v) n ;;
  let three := if o_r3 o then purge3 n three else three in
  four <-? (if o_r4 o then purge4 n (o_f4 o) four else Ok four) ;;
  added <-? (if (n =? 6) && negb (o_no_hard o) then
               rmap (@concat pystr) (rmapM (fun inv => rmap (fun b : bool => if b then [inv] else []) (e_test v inv)) hard_coded)
             else Ok []) ;;
  Ok {| invs_2 := gen_2 n; invs_3 := map render three ++ added;
        invs_4 := map render four ++ (if n =? 7 then [render (Brk true 1 [[5; 6]; [2; 7]] 1); render (Brk false 1 [[5; 6]; [2; 7]] 1); delta_lit "12|347|56"] else []);
        invs_5 := map render (gen_5 (e_iset v) n); invs_s := gen_s n;
        invs_D := gen_D n ++ (if n =? 6 then [delta_lit "15|26|34"; delta_lit "14|23|56"; delta_lit "13|24|56"] else []);
        invs_O := gen_O n; invs_P := gen_P n; invs_tr5 := gen_tr5 n |}.
(* Invariants.full, invariants.py:105-107 *)
Definition full (i : invs) : list pystr :=
  invs_2 i ++ invs_3 i ++ invs_4 i ++ invs_5 i ++ invs_s i ++ invs_D i ++ invs_O i ++ invs_P i ++ invs_tr5 i.
