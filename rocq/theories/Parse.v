(* Evaluation of expressions: Particles_Eval._parse, particles_eval.py:109-164, with all its
   replacements, then ast.parse and _eval_node, particles_eval.py:174-252, for the expressions
   whose values are numbers.
   Simplifications: non_unicode_powers (117), from another library, is taken to leave strings
   without superscript digits as they are, and strings with them are not considered; \d is
   0..9; square roots, arrays, subscripts and the products of matrices that python evaluates
   (188-251) are not in the syntax of [ast_parse], which has SyntaxError for them. *)
From Coq Require Import Ascii String.
From Coq Require Import List ZArith Bool QArith Qpower.
From Coq Require InitialRing.
From Verif Require Import Base Fld Str Regex.
Import ListNotations.
Open Scope Z_scope.
Open Scope res_scope.

(* re.sub: [m] gets the text behind (nearest character first) and the text ahead, and gives
   the length of the match, at least one, and the replacement; [skip] characters of the
   match are still to be dropped *)
Section ReSub.
Variable m : pystr -> pystr -> option (nat * pystr).
(* used in particles_eval.py:118-162 *)
Fixpoint re_sub (behind : pystr) (skip : nat) (s : pystr) : pystr :=
  match s with
  | [] => []
  | c :: s' =>
      match skip with
      | S k => re_sub (c :: behind) k s'
      | O => match m behind s with
             | Some (len, repl) => repl ++ re_sub (c :: behind) (pred len) s'
             | None => c :: re_sub (c :: behind) 0 s'
             end
      end
  end.
End ReSub.
(* \d+ from the start; particles_eval.py:29-37, 161 *)
Fixpoint digits (s : pystr) : pystr := match s with c :: s' => if is_digit c then c :: digits s' else [] | [] => [] end.
(* the value of a decimal literal; particles_eval.py:121-128, 175, 179-180 *)
Definition number (d : pystr) : Z := fold_left (fun a c => 10 * a + (c - 48)) d 0.
(* [a-zA-Z], particles_eval.py:136 *)
Definition is_letter (c : Z) : bool := ((65 <=? c) && (c <=? 90)) || ((97 <=? c) && (c <=? 122)).
(* [a-zA-Z\d], particles_eval.py:136 *)
Definition is_alnum (c : Z) : bool := is_digit c || is_letter c.
Definition is_c (k c : Z) : bool := c =? k.
(* \^(?![\]⟩>\|]) , particles_eval.py:118 *)
Definition m_pow (behind s : pystr) : option (nat * pystr) :=
  match s with
  | c :: s' => if (c =? 94) && negb (match s' with d :: _ => (d =? 93) || (d =? 10217) || (d =? 62) || (d =? 124) | [] => false end)
               then Some (1%nat, lit "**") else None
  | [] => None
  end.
(* pA2bis and pS2bis, particles_eval.py:30, 36, 130, 132 *)
Definition m_bis (bra ket : Z) (behind s : pystr) : option (nat * pystr) :=
  match s with
  | a :: i :: j :: b :: _ => if (a =? bra) && is_digit i && is_digit j && (b =? ket) then Some (4%nat, [bra; i; 124; j; ket]) else None
  | _ => None
  end.
Definition call (arg : pystr) : pystr := lit "oPs('" ++ arg ++ lit "')".
(* pA2 and pS2, particles_eval.py:29, 33, 131, 133 *)
Definition m_two (bra ket : Z) (behind s : pystr) : option (nat * pystr) :=
  match s with
  | a :: s1 =>
      if a =? bra then
        let i := digits s1 in
        match i, skipn (length i) s1 with
        | _ :: _, b :: s2 =>
            if b =? 124 then
              let j := digits s2 in
              match j, skipn (length j) s2 with
              | _ :: _, e :: _ => if e =? ket then Some ((length i + length j + 3)%nat, call (bra :: i ++ 124 :: j ++ [ket])) else None
              | _, _ => None
              end
            else None
        | _, _ => None
        end
      else None
  | [] => None
  end.
(* pSijk, particles_eval.py:37, 134 *)
Definition m_s (behind s : pystr) : option (nat * pystr) :=
  match s with
  | a :: s1 =>
      if (a =? 115) || (a =? 83) then
        let '(k, s2) := match s1 with u :: s2 => if u =? 95 then (2%nat, s2) else (1%nat, s1) | [] => (1%nat, s1) end in
        match digits s2 with
        | [] => None
        | d => Some ((k + length d)%nat, call (lit "s_" ++ d))
        end
      else None
  | [] => None
  end.
(* ([a-zA-Z\d]+)oPs, particles_eval.py:136: the longest group that is followed by oPs *)
Fixpoint alnums (s : pystr) : nat := match s with c :: s' => if is_alnum c then S (alnums s') else O | [] => O end.
(* particles_eval.py:136 *)
Fixpoint last_oPs (k : nat) (s : pystr) : option nat :=
  match k with
  | O => None
  | S k' => if starts (lit "oPs") (skipn k s) then Some k else last_oPs k' s
  end.
Definition m_oPs (behind s : pystr) : option (nat * pystr) :=
  match last_oPs (alnums s) s with
  | Some k => Some ((k + 3)%nat, firstn k s ++ lit "*oPs")
  | None => None
  end.
(* two characters with a * between them, particles_eval.py:156-160; [ok] is a condition on
   what is behind *)
Definition m_pair (ok : pystr -> bool) (f g : Z -> bool) (behind s : pystr) : option (nat * pystr) :=
  match s with
  | c :: d :: _ => if ok behind && f c && g d then Some (2%nat, [c; 42; d]) else None
  | _ => None
  end.
(* no condition: particles_eval.py:156-157, 159-160 *)
Definition anything (behind : pystr) : bool := true.
Definition not_tr (behind : pystr) : bool := negb (starts [114; 116] behind).
(* digits/digits not directly behind a double star, particles_eval.py:161-162 *)
Definition m_rat (behind s : pystr) : option (nat * pystr) :=
  let i := digits s in
  match i, skipn (length i) s with
  | _ :: _, b :: s2 =>
      if (b =? 47) && negb (starts [42; 42] behind) then
        match digits s2 with
        | [] => None
        | j => Some ((length i + length j + 1)%nat, lit "Fraction(" ++ i ++ lit "," ++ j ++ lit ")")
        end
      else None
  | _, _ => None
  end.
(* ---- the replacements for the longer and rarer forms ---- *)
(* text.replace(old, new), particles_eval.py:110-115, 129, 155 *)
Definition m_lit (old new : pystr) (behind s : pystr) : option (nat * pystr) := if starts old s then Some (length old, new) else None.
(* }$ ; there are no newlines any more; particles_eval.py:116 *)
Definition m_end (behind s : pystr) : option (nat * pystr) := match s with [c] => if c =? 125 then Some (1%nat, [41]) else None | _ => None end.
(* a class of characters; particles_eval.py:29-87 *)
Definition cls (l : list Z) (c : Z) : bool := existsb (Z.eqb c) l.
(* the longest beginning of characters of a class; where it is used the next thing that the pattern
   asks for is not in the class, so that giving back characters does not help; particles_eval.py:29-87 *)
Fixpoint run (f : Z -> bool) (s : pystr) : pystr := match s with c :: s' => if f c then c :: run f s' else [] | [] => [] end.
(* {([\d\|]+)} , particles_eval.py:119 *)
Definition m_braces (behind s : pystr) : option (nat * pystr) :=
  match s with
  | c :: s1 =>
      if c =? 123 then
        let d := run (fun x => is_digit x || (x =? 124)) s1 in
        match d, skipn (length d) s1 with
        | _ :: _, e :: _ => if e =? 125 then Some ((length d + 2)%nat, d) else None
        | _, _ => None
        end
      else None
  | [] => None
  end.
(* a character, a number, and two more characters: the massive spinors with a spin index,
   particles_eval.py:84-87, 121-128 *)
Definition m_spin (f g h : Z -> bool) (out : Z -> pystr) (behind s : pystr) : option (nat * pystr) :=
  match s with
  | c :: s1 =>
      if f c then
        let d := digits s1 in
        match d, skipn (length d) s1 with
        | _ :: _, x :: y :: _ => if g x && h y then Some ((length d + 3)%nat, out (number d)) else None
        | _, _ => None
        end
      else None
  | [] => None
  end.
(* 1013 is the lunate epsilon; particles_eval.py:122, 124, 126, 128 *)
Definition out_Au (i : Z) : pystr := 40 :: 1013 :: lit "@block([[" ++ 10216 :: dec i ++ lit "|], [" ++ 10216 :: dec (i + 1) ++ lit "|]]))[0:1, :]@|".
(* particles_eval.py:124 *)
Definition out_Ad (i : Z) : pystr := lit "|@(block([|" ++ dec i ++ 10217 :: lit ", |" ++ dec (i + 1) ++ 10217 :: lit "])@-" ++ 1013 :: lit ")[:, 0:1]".
(* particles_eval.py:126 *)
Definition out_Bd (i : Z) : pystr := lit "(-" ++ 1013 :: lit "@block([[[" ++ dec i ++ lit "|], [[" ++ dec (i + 1) ++ lit "|]]))[0:1, :]@|".
(* particles_eval.py:128 *)
Definition out_Bu (i : Z) : pystr := lit "|@(block([|" ++ dec i ++ lit "], |" ++ dec (i + 1) ++ lit "]])@" ++ 1013 :: lit ")[:, 0:1]".
(* pMi, particles_eval.py:38, 135 *)
Definition m_mass (behind s : pystr) : option (nat * pystr) :=
  match s with
  | a :: s1 =>
      if cls [109; 77] a then
        let '(k, s2) := match s1 with u :: s2 => if u =? 95 then (3%nat, s2) else (2%nat, s1) | [] => (2%nat, s1) end in
        match s2 with d :: _ => if is_digit d then Some (k, call (lit "m_" ++ [d])) else None | [] => None end
      else None
  | [] => None
  end.
(* pMVar, particles_eval.py:39, 137; 956 is the Greek mu *)
Definition m_mvar (behind s : pystr) : option (nat * pystr) :=
  match s with
  | a :: s1 =>
      if cls [109; 77; 956] a && negb (match behind with x :: _ => is_letter x | [] => false end) then
        let '(u, s2) := match s1 with x :: s2 => if x =? 95 then ([95], s2) else ([], s1) | [] => ([], s1) end in
        let w := run is_letter s2 in
        let d := digits (skipn (length w) s2) in
        Some (S (length u + length w + length d), call (a :: u ++ w ++ d))
      else None
  | [] => None
  end.
(* a prefix and a number: pOijk, pPijk, particles_eval.py:40-41, 138-139 *)
Definition m_pre (pre : pystr) (behind s : pystr) : option (nat * pystr) :=
  if starts pre s then
    match digits (skipn (length pre) s) with
    | [] => None
    | d => Some ((length pre + length d)%nat, call (pre ++ d))
    end
  else None.
(* [\d\|\+\-] and [\d+\+|-], particles_eval.py:82-83 *)
Definition is_sum (c : Z) : bool := is_digit c || cls [124; 43; 45] c.
(* a prefix, a text of numbers, bars and signs, and a closing parenthesis; particles_eval.py:82-83 *)
Definition m_args (pre : pystr) (behind s : pystr) : option (nat * pystr) :=
  if starts pre s then
    let s1 := skipn (length pre) s in
    let d := run is_sum s1 in
    match skipn (length d) s1 with
    | e :: _ => if e =? 41 then Some ((length pre + length d + 1)%nat, call (pre ++ d ++ [41])) else None
    | [] => None
    end
  else None.
(* ptr5, particles_eval.py:82, 140: the arguments are not empty *)
Definition m_tr5 (behind s : pystr) : option (nat * pystr) :=
  match m_pre (lit "tr5_") behind s with
  | Some x => Some x
  | None => match s with
            | _ :: _ :: _ :: _ :: c :: _ => if is_sum c then m_args (lit "tr5(") behind s else None
            | _ => None
            end
  end.
(* ptr, particles_eval.py:83, 141: parentheses around everything, or none *)
Definition m_tr (behind s : pystr) : option (nat * pystr) :=
  match s with
  | _ :: _ :: _ :: p :: c :: _ =>
      if (p =? 40) && is_sum c then
        match m_args (lit "tr((") behind s with
        | Some (n, out) => match skipn n s with
                           | e :: _ => if e =? 41 then Some (S n, call (firstn (S n) s)) else None
                           | [] => None
                           end
        | None => None
        end
      else m_args (lit "tr(") behind s
  | _ => m_args (lit "tr(") behind s
  end.
(* pDijk_adjacent, particles_eval.py:42, 142; 916 is the Greek Delta.  Giving back digits does not
   help, the next character would be a digit. *)
Definition m_Dadj (behind s : pystr) : option (nat * pystr) :=
  match m_pre [916; 95] behind s with
  | Some (n, out) => match skipn n s with c :: _ => if c =? 124 then None else Some (n, out) | [] => Some (n, out) end
  | None => None
  end.
(* \d+(?:\|\d+)* , particles_eval.py:43; [any] is whether there was a digit since the last bar *)
Fixpoint blocks (any : bool) (s : pystr) : pystr :=
  match s with
  | c :: s' => if is_digit c then c :: blocks true s'
               else if (c =? 124) && any && negb (match digits s' with [] => true | _ => false end) then c :: blocks false s' else []
  | [] => []
  end.
(* pDijk_non_adjacent, particles_eval.py:43, 143 *)
Definition m_Dnon (behind s : pystr) : option (nat * pystr) :=
  if starts [916; 95] s then
    match blocks false (skipn 2 s) with
    | [] => None
    | d => Some ((2 + length d)%nat, call (916 :: 95 :: d))
    end
  else None.

(* ---- lookarounds ---- *)
(* a sequence of classes at the beginning; particles_eval.py:31-35, 47-80 *)
Fixpoint looks (l : list (Z -> bool)) (s : pystr) : bool :=
  match l, s with
  | [], _ => true
  | f :: l', c :: s' => f c && looks l' s'
  | _ :: _, [] => false
  end.
(* (?!...) and (?<!...), written in the order of the text; particles_eval.py:31-35, 47-80 *)
Definition not_ahead (l : list (Z -> bool)) (s : pystr) : bool := negb (looks l s).
(* particles_eval.py:31-35, 47-80 *)
Definition not_behind (l : list (Z -> bool)) (b : pystr) : bool := negb (looks (rev l) b).
(* several characters as classes; particles_eval.py:31-35, 47-80 *)
Definition chs (t : pystr) : list (Z -> bool) := map is_c t.
(* [\+|-], particles_eval.py:31-35, 47-80 *)
Definition sep : Z -> bool := cls [43; 124; 45].
(* (?<!\('), particles_eval.py:31-35, 47-80 *)
Definition out_of_call (b : pystr) : bool := not_behind (chs (lit "('")) b.
(* (?!'\)), particles_eval.py:31-35, 47-80 *)
Definition no_end_call (s : pystr) : bool := not_ahead (chs (lit "')")) s.
(* (?<![\+|-]\d\))(?<![\+|-]\d), particles_eval.py:32, 35, 49, 65, 75 *)
Definition after_sum (b : pystr) : bool := not_behind [sep; is_digit; is_c 41] b && not_behind [sep; is_digit] b.
(* (?!\d[\+|-])(?!\(\d[\+|-]), particles_eval.py:31, 34, 59, 69, 79 *)
Definition before_sum (s : pystr) : bool := not_ahead [is_digit; sep] s && not_ahead [is_c 40; is_digit; sep] s.
(* pAu and pSd: an opening bracket, a number and a bar; particles_eval.py:31, 34, 146, 148 *)
Definition m_bra (f : Z -> bool) (kets : Z -> bool) (bra : Z) (behind s : pystr) : option (nat * pystr) :=
  match s with
  | c :: s1 =>
      if f c && out_of_call behind then
        let d := digits s1 in
        match d, skipn (length d) s1 with
        | _ :: _, x :: s2 =>
            if (x =? 124) && not_ahead [is_digit; kets] s2 && before_sum s2 && no_end_call s2
            then Some ((length d + 2)%nat, call (bra :: d ++ [124])) else None
        | _, _ => None
        end
      else None
  | [] => None
  end.
(* pAd and pSu: a bar, a number and a closing bracket; particles_eval.py:32, 35, 147, 149 *)
Definition m_ket (f : Z -> bool) (bras : Z -> bool) (ket : Z) (behind s : pystr) : option (nat * pystr) :=
  match s with
  | c :: s1 =>
      if (c =? 124) && out_of_call behind && not_behind [bras; is_digit] behind && after_sum behind then
        let d := digits s1 in
        match d, skipn (length d) s1 with
        | _ :: _, x :: s2 => if f x && no_end_call s2 then Some ((length d + 2)%nat, call (124 :: d ++ [ket])) else None
        | _, _ => None
        end
      else None
  | [] => None
  end.
(* a pattern between lookarounds: the first match, in the order of backtracking, that what follows
   allows; [out] makes the replacement from the text of the match; particles_eval.py:46-80 *)
Definition m_re (ok : pystr -> bool) (r : re) (next : pystr -> bool) (out : pystr -> pystr) (behind s : pystr) : option (nat * pystr) :=
  if ok behind then
    match find (fun x => next (snd x)) (tries r s) with
    | Some x => let n := (length s - length (snd x))%nat in Some (n, out (firstn n s))
    | None => None
    end
  else None.
(* pNB, particles_eval.py:46 *)
Definition e_NB : re :=
  RSeq (RChr (cls [60; 10216; 91])) (RSeq rnum (RSeq (rc 124)
    (RSeq (rplus (RSeq (ropt (rc 40)) (RSeq (rplus (RSeq rnum (ropt (RChr sep)))) (RSeq (ropt (rc 41)) (ropt (rc 124))))))
       (RSeq (rc 124) (RSeq rnum (RChr (cls [10217; 93; 62]))))))).
(* particles_eval.py:46, 144 *)
Definition m_NB := m_re anything e_NB anything call.
(* (?:[\+|-]\d+)*, particles_eval.py:51, 58, 68, 78 *)
Definition more_terms : re := RStar (RSeq (RChr sep) rnum).
(* \d+(?:[\+|-]\d+)*, particles_eval.py:51, 58, 68, 78 *)
Definition terms : re := RSeq rnum more_terms.
(* the capture between the bars of pNB_open_begin, particles_eval.py:51 *)
Definition mid_begin : re := rplus (RAlt (RSeq (rc 40) (RSeq terms (rc 41))) terms).
(* that of pNB_open_end and the double open ones, particles_eval.py:58, 68, 78 *)
Definition mid_end : re := rplus (RAlt (RSeq (rc 40) (RSeq (rplus (RChr is_sum)) (RSeq more_terms (rc 41)))) terms).
(* (?<![\(\[⟨<]\d), particles_eval.py:49, 65, 75 *)
Definition not_bra_behind (b : pystr) : bool := not_behind [cls [40; 91; 10216; 60]; is_digit] b.
(* (?<!c\d)(?<!c\d\d)(?<!c\d\d\d)(?<!c\d\d\d\d), particles_eval.py:50, 66-67, 76-77 *)
Definition not_number_behind (k : Z) (b : pystr) : bool := forallb (fun n => not_behind (is_c k :: repeat is_digit n) b) [1; 2; 3; 4]%nat.
(* pNB_open_begin, particles_eval.py:47-54, 150 *)
Definition m_begin :=
  m_re (fun b => out_of_call b && not_bra_behind b && after_sum b && not_number_behind 95 b)
       (RSeq (rc 124) (RSeq mid_begin (RSeq (rc 124) (RSeq rnum (RChr (cls [10217; 93]))))))
       no_end_call call.
(* (?!\d[⟩>\]])(?!\d[\+|-])(?!\(\d[\+|-])(?!'\)), particles_eval.py:59-60, 69-70, 79-80 *)
Definition free_end (s : pystr) : bool := not_ahead [is_digit; cls [10217; 62; 93]] s && before_sum s && no_end_call s.
(* pNB_open_end, particles_eval.py:55-61, 151 *)
Definition m_open_end :=
  m_re out_of_call (RSeq (RChr (cls [10216; 60; 91])) (RSeq rnum (RSeq (rc 124) (RSeq mid_end (rc 124))))) free_end call.
(* '\[\d\|'\)\]\]\)\)\[0:1, :\]@ , particles_eval.py:64, 74 *)
Definition spinor_behind : list (Z -> bool) := chs (lit "'[") ++ is_digit :: chs (lit "|')]]))[0:1, :]@").
(* the other lookbehinds of the double open ones, particles_eval.py:63, 65-67, 73, 75-77 *)
Definition ok_double (b : pystr) : bool :=
  out_of_call b && not_bra_behind b && after_sum b && not_number_behind 95 b && not_number_behind 124 b.
(* particles_eval.py:68, 78 *)
Definition e_double : re := RSeq (rc 124) (RSeq mid_end (rc 124)).
(* pNB_double_open, particles_eval.py:62-71, 152 *)
Definition m_double := m_re (fun b => ok_double b && not_behind spinor_behind b) e_double free_end call.
(* pNB_double_open_disambiguate_alphadot, particles_eval.py:72-81, 153 *)
Definition m_double_dot :=
  m_re (fun b => ok_double b && looks (rev spinor_behind) b) e_double free_end
       (fun t => lit "numpy.transpose(-" ++ 1013 :: lit " @ " ++ call t ++ lit " @ " ++ 1013 :: lit ")").
(* (?<!numpy\.)block, particles_eval.py:163 *)
Definition m_block (behind s : pystr) : option (nat * pystr) :=
  if starts (lit "block") s && not_behind (chs (lit "numpy.")) behind then Some (5%nat, lit "numpy.block") else None.

(* Particles_Eval._parse, particles_eval.py:109-129 *)
Definition parse_clean (s : pystr) : pystr :=
  let s := re_sub (m_lit [8722] [45]) [] 0 s in
  let s := re_sub (m_lit (lit "\scriptscriptstyle") []) [] 0 s in
  let s := re_sub (m_lit [60] [10216]) [] 0 s in
  let s := re_sub (m_lit [62] [10217]) [] 0 s in
  let s := re_sub (m_lit (lit "\frac{") (lit "(")) [] 0 s in
  let s := re_sub (m_lit (lit "}{") (lit ")/(")) [] 0 s in
  let s := re_sub (m_lit (lit "}+\") (lit ")+")) [] 0 s in
  let s := re_sub (m_lit [10] []) [] 0 s in
  let s := re_sub (m_lit [32] []) [] 0 s in
  re_sub m_end [] 0 s.
(* particles_eval.py:121-129 *)
Definition parse_spins (s : pystr) : pystr :=
  let s := re_sub (m_spin (cls [10216; 60]) (cls [95; 100]) (is_c 124) out_Au) [] 0 s in
  let s := re_sub (m_spin (is_c 124) (cls [95; 100]) (cls [10217; 62]) out_Ad) [] 0 s in
  let s := re_sub (m_spin (is_c 91) (cls [94; 117]) (is_c 124) out_Bd) [] 0 s in
  let s := re_sub (m_spin (is_c 124) (cls [94; 117]) (is_c 93) out_Bu) [] 0 s in
  re_sub (m_lit (lit "@|@") (lit "@")) [] 0 s.
(* particles_eval.py:146-153 *)
Definition parse_open (s : pystr) : pystr :=
  let s := re_sub (m_bra (cls [10216; 60]) (cls [10217; 124; 62]) 10216) [] 0 s in
  let s := re_sub (m_ket (cls [10217; 62]) (cls [10216; 124; 60]) 10217) [] 0 s in
  let s := re_sub (m_bra (is_c 91) (is_c 93) 91) [] 0 s in
  let s := re_sub (m_ket (is_c 93) (is_c 91) 93) [] 0 s in
  let s := re_sub m_begin [] 0 s in
  let s := re_sub m_open_end [] 0 s in
  let s := re_sub m_double [] 0 s in
  re_sub m_double_dot [] 0 s.
(* Particles_Eval._parse, particles_eval.py:109-164 *)
Definition py_parse (s : pystr) : pystr :=
  let s := parse_clean s in
  let s := re_sub m_pow [] 0 s in
  let s := re_sub m_braces [] 0 s in
  let s := parse_spins s in
  let s := re_sub (m_bis 10216 10217) [] 0 s in
  let s := re_sub (m_two 10216 10217) [] 0 s in
  let s := re_sub (m_bis 91 93) [] 0 s in
  let s := re_sub (m_two 91 93) [] 0 s in
  let s := re_sub m_s [] 0 s in
  let s := re_sub m_mass [] 0 s in
  let s := re_sub m_oPs [] 0 s in
  let s := re_sub m_mvar [] 0 s in
  let s := re_sub (m_pre [937; 95]) [] 0 s in
  let s := re_sub (m_pre [928; 95]) [] 0 s in
  let s := re_sub m_tr5 [] 0 s in
  let s := re_sub m_tr [] 0 s in
  let s := re_sub m_Dadj [] 0 s in
  let s := re_sub m_Dnon [] 0 s in
  let s := re_sub m_NB [] 0 s in
  let s := parse_open s in
  let s := re_sub (m_lit (lit "sqrt") (lit "oPs.field.sqrt")) [] 0 s in
  let s := re_sub (m_pair anything is_digit (is_c 115)) [] 0 s in
  let s := re_sub (m_pair anything is_digit (is_c 111)) [] 0 s in
  let s := re_sub (m_pair not_tr is_digit (is_c 40)) [] 0 s in
  let s := re_sub (m_pair anything (is_c 41) is_digit) [] 0 s in
  let s := re_sub (m_pair anything (is_c 41) (is_c 40)) [] 0 s in
  let s := re_sub (m_pair anything (is_c 41) (is_c 111)) [] 0 s in
  let s := re_sub m_rat [] 0 s in
  re_sub m_block [] 0 s.

(* ---- ast.parse: the tokens and the expression grammar of python ----; particles_eval.py:175 *)
Inductive ktok := KNum (z : Z) | KName (s : pystr) | KStr (s : pystr) | KOp (c : Z) | KPow.
(* python does not accept leading zeros; particles_eval.py:175 *)
Definition literal_ok (d : pystr) : bool := match d with c :: _ :: _ => negb (c =? 48) || forallb (fun x => x =? 48) d | _ => true end.
(* an identifier of python, particles_eval.py:175 *)
Fixpoint name (s : pystr) : pystr := match s with c :: s' => if is_alnum c || (c =? 95) then c :: name s' else [] | [] => [] end.
(* a string literal of python, particles_eval.py:175 *)
Fixpoint until_quote (s : pystr) : pystr := match s with c :: s' => if c =? 39 then [] else c :: until_quote s' | [] => [] end.
(* the other tokens, particles_eval.py:175 *)
Definition is_op (c : Z) : bool := (c =? 43) || (c =? 45) || (c =? 42) || (c =? 47) || (c =? 40) || (c =? 41) || (c =? 44).
(* the tokens, particles_eval.py:175 *)
Fixpoint lex (fuel : nat) (s : pystr) : option (list ktok) :=
  match fuel, s with
  | O, _ => None
  | S _, [] => Some []
  | S n, c :: s' =>
      if is_digit c then
        let d := digits s in if literal_ok d then option_map (cons (KNum (number d))) (lex n (skipn (length d) s)) else None
      else if is_letter c then let w := name s in option_map (cons (KName w)) (lex n (skipn (length w) s))
      else if c =? 39 then let w := until_quote s' in option_map (cons (KStr w)) (lex n (skipn (length w + 2) s))
      else match c =? 42, s' with
           | true, d :: s'' => if d =? 42 then option_map (cons KPow) (lex n s'') else option_map (cons (KOp c)) (lex n s')
           | _, _ => if is_op c then option_map (cons (KOp c)) (lex n s') else None
           end
  end.
(* ast.Constant, BinOp, UnaryOp, Call, particles_eval.py:179-221 *)
Inductive ast :=
| ANum (z : Z) | AAdd (a b : ast) | ASub (a b : ast) | AMul (a b : ast) | ADiv (a b : ast) | APow (a b : ast)
| ANeg (a : ast) | APos (a : ast)
| AoPs (arg : pystr)        (* oPs('...') *)
| AFrac (n d : Z).          (* Fraction(n,d) *)
(* The expression part of python's grammar: sums, terms, factors, powers, atoms; calls only of
   the forms that _parse writes.; particles_eval.py:175 *)
Fixpoint p_sum (fuel : nat) (ts : list ktok) : option (ast * list ktok) :=
  match fuel with
  | O => None
  | S f => match p_term f ts with Some (a, r) => sum_loop f a r | None => None end
  end
with sum_loop (fuel : nat) (a : ast) (ts : list ktok) : option (ast * list ktok) :=
  match fuel with
  | O => None
  | S f =>
      match ts with
      | KOp c :: r =>
          if c =? 43 then match p_term f r with Some (b, r') => sum_loop f (AAdd a b) r' | None => None end
          else if c =? 45 then match p_term f r with Some (b, r') => sum_loop f (ASub a b) r' | None => None end
          else Some (a, ts)
      | _ => Some (a, ts)
      end
  end
with p_term (fuel : nat) (ts : list ktok) : option (ast * list ktok) :=
  match fuel with
  | O => None
  | S f => match p_factor f ts with Some (a, r) => term_loop f a r | None => None end
  end
with term_loop (fuel : nat) (a : ast) (ts : list ktok) : option (ast * list ktok) :=
  match fuel with
  | O => None
  | S f =>
      match ts with
      | KOp c :: r =>
          if c =? 42 then match p_factor f r with Some (b, r') => term_loop f (AMul a b) r' | None => None end
          else if c =? 47 then match p_factor f r with Some (b, r') => term_loop f (ADiv a b) r' | None => None end
          else Some (a, ts)
      | _ => Some (a, ts)
      end
  end
with p_factor (fuel : nat) (ts : list ktok) : option (ast * list ktok) :=
  match fuel with
  | O => None
  | S f =>
      match ts with
      | KOp c :: r =>
          if c =? 43 then match p_factor f r with Some (a, r') => Some (APos a, r') | None => None end
          else if c =? 45 then match p_factor f r with Some (a, r') => Some (ANeg a, r') | None => None end
          else p_power f ts
      | _ => p_power f ts
      end
  end
with p_power (fuel : nat) (ts : list ktok) : option (ast * list ktok) :=
  match fuel with
  | O => None
  | S f =>
      match p_atom f ts with
      | Some (a, KPow :: r) => match p_factor f r with Some (b, r') => Some (APow a b, r') | None => None end
      | x => x
      end
  end
with p_atom (fuel : nat) (ts : list ktok) : option (ast * list ktok) :=
  match fuel with
  | O => None
  | S f =>
      match ts with
      | KNum z :: r => Some (ANum z, r)
      | KName w :: KOp l :: KStr arg :: KOp c :: r =>
          if str_eqb w (lit "oPs") && (l =? 40) && (c =? 41) then Some (AoPs arg, r) else None
      | KName w :: KOp l :: KNum n :: KOp k :: KNum d :: KOp c :: r =>
          if str_eqb w (lit "Fraction") && (l =? 40) && (k =? 44) && (c =? 41) then Some (AFrac n d, r) else None
      | KOp l :: r =>
          if l =? 40 then
            match p_sum f r with
            | Some (a, KOp c :: r') => if c =? 41 then Some (a, r') else None
            | _ => None
            end
          else None
      | _ => None
      end
  end.
Definition ast_parse (s : pystr) : result ast :=
  match lex (S (length s)) s with
  | Some ts => match p_sum (6 * length ts + 6) ts with Some (a, []) => Ok a | _ => Err SyntaxError end
  | None => Err SyntaxError
  end.

(* ---- _eval_node, particles_eval.py:178-251 ---- *)
Section Eval.
Context {K : Fld}.
(* an integer in the field; particles_eval.py:21-23 *)
Definition kz (z : Z) : K := InitialRing.gen_phiZ f0 f1 fadd fmul fopp z.
(* x ** n, particles_eval.py:21-23 *)
Fixpoint kpow (x : K) (n : nat) : K := match n with O => f1 | S n' => (x * kpow x n')%fld end.
(* python's numbers here: int, Fraction, elements of the field, and floats, whose value is
   not modelled; particles_eval.py:178-221 *)
Inductive value := VInt (z : Z) | VFrac (q : Q) | VElt (x : K) | VFloat.
(* Fractions are kept reduced; particles_eval.py:216-221 *)
Definition frac (q : Q) : value := VFrac (Qred q).
(* int and Fraction operands of an operation with a field element are converted by it; particles_eval.py:182-183 *)
Definition to_K (v : value) : result K :=
  match v with
  | VInt z => Ok (kz z)
  | VFrac q => divE (kz (Qnum q)) (kz (Zpos (Qden q)))
  | VElt x => Ok x
  | VFloat => Err OtherException
  end.
Definition to_Q (v : value) : Q := match v with VInt z => inject_Z z | VFrac q => q | _ => 0 end.
(* the operators of particles_eval.py:21-23 *)
Definition lift2 (fz : Z -> Z -> result value) (fq : Q -> Q -> result value) (fk : K -> K -> result K) (v w : value) : result value :=
  match v, w with
  | VFloat, _ | _, VFloat => Ok VFloat
  | VInt a, VInt b => fz a b
  | VElt x, _ => y <-? to_K w ;; rmap VElt (fk x y)
  | _, VElt y => x <-? to_K v ;; rmap VElt (fk x y)
  | _, _ => fq (to_Q v) (to_Q w)
  end.
(* ast.Add, particles_eval.py:21-23 *)
Definition v_add := lift2 (fun a b => Ok (VInt (a + b))) (fun a b => Ok (frac (a + b))) (fun a b => Ok (a + b)%fld).
(* ast.Sub, particles_eval.py:21-23 *)
Definition v_sub := lift2 (fun a b => Ok (VInt (a - b))) (fun a b => Ok (frac (a - b))) (fun a b => Ok (a - b)%fld).
(* ast.Mult, particles_eval.py:21-23 *)
Definition v_mul := lift2 (fun a b => Ok (VInt (a * b))) (fun a b => Ok (frac (a * b))) (fun a b => Ok (a * b)%fld).
(* int / int is a float; ast.Div, particles_eval.py:21-23 *)
Definition v_div := lift2 (fun a b => if b =? 0 then Err ZeroDivisionError else Ok VFloat)
                          (fun a b => if Qeq_bool b 0 then Err ZeroDivisionError else Ok (frac (a / b))) divE.
(* ast.USub, particles_eval.py:21-23, 185-186 *)
Definition v_neg (v : value) : value := match v with VInt a => VInt (- a) | VFrac q => VFrac (- q) | VElt x => VElt (- x)%fld | VFloat => VFloat end.
(* ast.Pow of a field element, particles_eval.py:21-23 *)
Definition k_pow (x : K) (n : Z) : result K := if n <? 0 then divE f1 (kpow x (Z.to_nat (- n))) else Ok (kpow x (Z.to_nat n)).
(* ast.Pow, particles_eval.py:21-23 *)
Definition v_pow (v w : value) : result value :=
  match v, w with
  | VFloat, _ | _, VFloat => Ok VFloat
  | VInt a, VInt n => if n <? 0 then (if a =? 0 then Err ZeroDivisionError else Ok VFloat) else Ok (VInt (a ^ n))
  | VFrac q, VInt n => if (n <? 0) && Qeq_bool q 0 then Err ZeroDivisionError else Ok (frac (Qpower q n))
  | VElt x, VInt n => rmap VElt (k_pow x n)
  | VElt _, VFrac _ => Err TypeError
  | _, VFrac _ => Ok VFloat
  | _, VElt _ => Err TypeError
  end.
Section Node.
Variable oPs : pystr -> result K.
Fixpoint eval_node (a : ast) : result value :=
  match a with
  | ANum z => Ok (VInt z)
  | AAdd a b => x <-? eval_node a ;; y <-? eval_node b ;; v_add x y
  | ASub a b => x <-? eval_node a ;; y <-? eval_node b ;; v_sub x y
  | AMul a b => x <-? eval_node a ;; y <-? eval_node b ;; v_mul x y
  | ADiv a b => x <-? eval_node a ;; y <-? eval_node b ;; v_div x y
  | APow a b => x <-? eval_node a ;; y <-? eval_node b ;; v_pow x y
  | ANeg a => rmap v_neg (eval_node a)
  | APos a => eval_node a
  | AoPs arg => rmap VElt (oPs arg)
  | AFrac n d => if d =? 0 then Err ZeroDivisionError else Ok (frac (inject_Z n / inject_Z d))
  end.
(* Particles_Eval._eval, particles_eval.py:166-168 *)
Definition py_eval (s : pystr) : result value := a <-? ast_parse (py_parse s) ;; eval_node a.
End Node.
End Eval.
Arguments value K : clear implicits.
