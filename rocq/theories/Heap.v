(* Which objects are shared: numpy arrays and their views, Particle and Particles objects in
   a heap, and the methods of lips/particle.py and lips/particles.py on it.
   The values that are computed are those of Particle.v; here it matters which arrays are new
   and which ones are changed in place. *)
From Coq Require Import List ZArith Bool.
From Verif Require Import Base Fld Particle Index Phase Compute Cluster Symm Str.
Import ListNotations.

(* the identity of an object *)
Definition loc := nat.
(* the attributes _r_sp_u, _r_sp_d, _l_sp_u, _l_sp_d, _r2_sp, _r2_sp_b, _four_mom,
   _four_mom_d, particle.py:121-300 *)
Inductive attr := RU | RD | LU | LD | R2 | R2B | FM | FMD.
(* particle.py:121-300 *)
Definition attr_eqb (a b : attr) : bool :=
  match a, b with RU, RU | RD, RD | LU, LU | LD, LD | R2, R2 | R2B, R2B | FM, FM | FMD, FMD => true | _, _ => false end.
(* particle.py:121-300 *)
Definition all_attrs : list attr := [RU; RD; LU; LD; R2; R2B; FM; FMD].

Section Heap.
Context {K : Fld}.
Open Scope fld_scope.
Open Scope mon_scope.

(* A numpy array: the memory it looks at (base), its shape, and which cells of the memory its
   entries are, in the order of the rows.  Views (.T, slices) have the same memory.  The
   numbers in the memory are immutable.; e.g. the arrays of particle.py:358-450 *)
Record arr := mkArr { base : loc; shape : list nat; cells : list nat }.
(* A Particle: its attributes (None also for one that was never set) and spin_index
   (as in Particle.v).  The field and the twistor attributes are left out.; particle.py:44-62, 121-300 *)
Record hpart := mkHP { at_ : attr -> option loc; hspin : option bool }.
(* A Particles: the list, oRefVec, the set internal_masses and the values of the masses.; particles.py:44-74 *)
Record hpoint := mkPt { legs : list loc; refvec : option loc; mset : loc; mvals : dict K }.
(* the classes of particle.py:25 and particles.py:34, numpy.ndarray and set *)
Inductive obj := BufO (xs : list K) | ArrO (a : arr) | PartO (p : hpart) | SetO (ns : list pystr) | PointO (s : hpoint).
(* python's objects, by identity (copied by particles.py:149) *)
Definition heap := list obj.
(* a method, e.g. particles.py:144-192 *)
Definition H (A : Type) := M heap A.

(* ---- access ----; reading a reference (e.g. particle.py:123) *)
Definition load (l : loc) : H obj := fun h => (h, match nth_error h l with Some o => Ok o | None => Err AttributeError end).
(* replace an entry of a list; e.g. particles.py:424 *)
Fixpoint put {A} (xs : list A) (k : nat) (x : A) : list A :=
  match xs, k with [], _ => [] | _ :: t, O => x :: t | y :: t, S k' => y :: put t k' x end.
(* changing an object (e.g. particle.py:127) *)
Definition store (l : loc) (o : obj) : H unit := fun h => (put h l o, Ok tt).
(* a new object (e.g. particles.py:149) *)
Definition alloc (o : obj) : H loc := fun h => (h ++ [o], Ok (length h)).
(* an object of another class has no such attribute or method; e.g. particle.py:342 *)
Definition load_buf l : H (list K) := o <- load l ;; match o with BufO xs => ret xs | _ => raise AttributeError end.
(* e.g. particle.py:127 *)
Definition load_arr l : H arr := o <- load l ;; match o with ArrO a => ret a | _ => raise AttributeError end.
(* e.g. particles.py:141 *)
Definition load_part l : H hpart := o <- load l ;; match o with PartO p => ret p | _ => raise AttributeError end.
(* particles.py:83 *)
Definition load_set l : H (list pystr) := o <- load l ;; match o with SetO ns => ret ns | _ => raise AttributeError end.
(* e.g. particles.py:144 *)
Definition load_point l : H hpoint := o <- load l ;; match o with PointO s => ret s | _ => raise AttributeError end.
(* [f(x) for x in xs]; e.g. particles.py:173 *)
Fixpoint mapH {A B} (f : A -> H B) (xs : list A) : H (list B) :=
  match xs with [] => ret [] | x :: t => y <- f x ;; ys <- mapH f t ;; ret (y :: ys) end.
(* the for loops of particles.py:139-142, 176 *)
Fixpoint eachH {A} (f : A -> H unit) (xs : list A) : H unit :=
  match xs with [] => ret tt | x :: t => f x ;; eachH f t end.

(* ---- numpy ---- *)
(* the entries of an array; e.g. particle.py:422 *)
Definition read (l : loc) : H (list K) :=
  a <- load_arr l ;; xs <- load_buf (base a) ;;
  lift (rmapM (fun k => match nth_error xs k with Some x => Ok x | None => Err IndexError end) (cells a)).
(* numpy.array; e.g. particle.py:430-450 *)
Definition new_arr (sh : list nat) (xs : list K) : H loc :=
  b <- alloc (BufO xs) ;; alloc (ArrO (mkArr b sh (seq 0 (length xs)))).
(* the cells of the transpose of an array of m rows and n columns; particle.py:333, 342-343 *)
Definition tr_cells (m n : nat) (cs : list nat) : list nat :=
  flat_map (fun j => map (fun i => nth (i * n + j) cs 0%nat) (seq 0 m)) (seq 0 n).
(* array.T, a view *)
Definition transpose (l : loc) : H loc :=
  a <- load_arr l ;;
  match shape a with
  | [m; n] => alloc (ArrO (mkArr (base a) [n; m] (tr_cells m n (cells a))))
  | sh => alloc (ArrO (mkArr (base a) sh (cells a)))
  end.
(* array[:, i:i+1] and array[i:i+1, :] of a 2 x 2 array, views; particles.py:189 *)
Definition column (l : loc) (i : nat) : H loc :=
  a <- load_arr l ;; alloc (ArrO (mkArr (base a) [2; 1]%nat [nth i (cells a) 0; nth (2 + i) (cells a) 0]%nat)).
(* particles.py:190 *)
Definition row (l : loc) (i : nat) : H loc :=
  a <- load_arr l ;; alloc (ArrO (mkArr (base a) [1; 2]%nat [nth (2 * i) (cells a) 0; nth (2 * i + 1) (cells a) 0]%nat)).
(* array.shape = ..., which changes the array object.  Simplification: for views with gaps
   numpy may refuse.; particle.py:127, 147, 167, 187, 426-427 *)
Definition set_shape (l : loc) (sh : list nat) : H unit :=
  a <- load_arr l ;;
  if Nat.eqb (fold_right Nat.mul 1%nat sh) (length (cells a)) then store l (ArrO (mkArr (base a) sh (cells a))) else raise ValueError.
(* array.flat[k] = x; a client's own assignment; in lips particle.py:465 *)
Definition write (l : loc) (k : nat) (x : K) : H unit :=
  a <- load_arr l ;; xs <- load_buf (base a) ;;
  match nth_error (cells a) k with Some c => store (base a) (BufO (put xs c x)) | None => raise IndexError end.
(* array *= c; particle.py:334-340 *)
Definition scale (l : loc) (c : K) : H unit :=
  a <- load_arr l ;; xs <- load_buf (base a) ;;
  store (base a) (BufO (fold_left (fun ys k => put ys k (nth k ys 0 * c)) (cells a) xs)).

(* ---- one particle ----; particle.py:121-300 *)
Definition set_at (a : attr) (v : option loc) (p : hpart) : hpart :=
  mkHP (fun b => if attr_eqb b a then v else at_ p b) (hspin p).
(* object.__setattr__ for the eight attributes *)
Definition setattr (p : loc) (a : attr) (v : option loc) : H unit := P <- load_part p ;; store p (PartO (set_at a v P)).
(* the value of an attribute.  Simplification: spinors of shape (2,2) (massive fermions with
   index_value = all) are left out, they are a ValueError here.; particle.py:121-200 *)
Definition get_v2 (o : option loc) : H (option (v2 K)) :=
  match o with None => ret None | Some l => xs <- read l ;; match xs with [x; y] => ret (Some (V2 x y)) | _ => raise ValueError end end.
(* particle.py:258-300 *)
Definition get_v4 (o : option loc) : H (option (v4 K)) :=
  match o with None => ret None | Some l => xs <- read l ;; match xs with [x; y; z; w] => ret (Some (V4 x y z w)) | _ => raise ValueError end end.
(* zero before it is set, as in Particle.blank; particle.py:201-256 *)
Definition get_m2 (o : option loc) : H (m2 K) :=
  match o with None => ret mzero | Some l => xs <- read l ;; match xs with [x; y; z; w] => ret (M2 x y z w) | _ => raise ValueError end end.
(* the state of a Particle object as in Particle.v; particle.py:121-300 *)
Definition read_part (p : loc) : H (particle K) :=
  P <- load_part p ;;
  ru <- get_v2 (at_ P RU) ;; rd <- get_v2 (at_ P RD) ;; lu <- get_v2 (at_ P LU) ;; ld <- get_v2 (at_ P LD) ;;
  m <- get_m2 (at_ P R2) ;; mb <- get_m2 (at_ P R2B) ;; f <- get_v4 (at_ P FM) ;; fd <- get_v4 (at_ P FMD) ;;
  ret (mkP ru rd lu ld m mb f fd (hspin P)).
(* a new array with the value of one attribute; particle.py:430-450 *)
Definition new_v2 sh (o : option (v2 K)) : H (option loc) :=
  match o with None => ret None | Some v => l <- new_arr sh [e0 v; e1 v] ;; ret (Some l) end.
(* particle.py:402-420 *)
Definition new_v4 (o : option (v4 K)) : H (option loc) :=
  match o with None => ret None | Some v => l <- new_arr [4]%nat [c0 v; c1 v; c2 v; c3 v] ;; ret (Some l) end.
(* particle.py:390-428 *)
Definition new_m2 (m : m2 K) : H loc := new_arr [2; 2]%nat [m00 m; m01 m; m10 m; m11 m].
Definition new_value (a : attr) (p : particle K) : H (option loc) :=
  match a with
  | RU => new_v2 [1; 2]%nat (r_u p) | RD => new_v2 [2; 1]%nat (r_d p)
  | LU => new_v2 [2; 1]%nat (l_u p) | LD => new_v2 [1; 2]%nat (l_d p)
  | R2 => l <- new_m2 (r2 p) ;; ret (Some l) | R2B => l <- new_m2 (r2b p) ;; ret (Some l)
  | FM => new_v4 (fm p) | FMD => new_v4 (fmd p)
  end.
(* A private conversion, particle.py:358-450: [m] is its effect on the values, [a] the one
   attribute that it assigns; the arrays that numpy computes are new. *)
Definition conv (a : attr) (m : PM unit) (p : loc) : H unit :=
  v <- read_part p ;;
  match m v with (v', Ok _) => l <- new_value a v' ;; setattr p a l | (_, Err e) => raise e end.
(* particle.py:133-138 and the other copies of this block *)
Definition h_four_mom (m : PM unit) (p : loc) : H unit :=
  try_except (conv FM m p ;; conv FMD four_mom_to_four_mom_d p) caught (setattr p FM None ;; setattr p FMD None).
Definition h_clear_spinors (p : loc) : H unit :=
  setattr p RU None ;; setattr p RD None ;; setattr p LU None ;; setattr p LD None.
(* particle.py:217-226, 245-254, 268-277, 291-300 *)
Definition h_spinors (r l : PM unit) (p : loc) : H unit :=
  try_except (conv RD r p ;; conv RU r_sp_d_to_r_sp_u p ;; conv LD l p ;; conv LU l_sp_d_to_l_sp_u p) caught (h_clear_spinors p).
(* x.shape = sh where x is an attribute.  Simplification: nothing for None (the product that
   follows raises). *)
Definition shape_of (p : loc) (a : attr) (sh : list nat) : H unit :=
  P <- load_part p ;; match at_ P a with Some l => set_shape l sh | None => ret tt end.
(* particle.py:422-428 *)
Definition h_r2_from_spinors (p : loc) : H unit :=
  conv R2 r1_sp_to_r2_sp p ;; shape_of p RD [2; 1]%nat ;; shape_of p LD [1; 2]%nat ;; conv R2B r1_sp_to_r2_sp_b p.
(* The public setters: the array that is assigned is kept, not copied.
   particle.py:125-138 *)
Definition h_assign_r_sp_d (p x : loc) : H unit :=
  setattr p RD (Some x) ;; set_shape x [2; 1]%nat ;; conv RU r_sp_d_to_r_sp_u p ;; h_r2_from_spinors p ;; h_four_mom r2_sp_b_to_four_momentum p.
(* particle.py:145-158 *)
Definition h_assign_l_sp_d (p x : loc) : H unit :=
  setattr p LD (Some x) ;; set_shape x [1; 2]%nat ;; conv LU l_sp_d_to_l_sp_u p ;; h_r2_from_spinors p ;; h_four_mom r2_sp_b_to_four_momentum p.
(* particle.py:165-178 *)
Definition h_assign_r_sp_u (p x : loc) : H unit :=
  setattr p RU (Some x) ;; set_shape x [1; 2]%nat ;; conv RD r_sp_u_to_r_sp_d p ;; h_r2_from_spinors p ;; h_four_mom r2_sp_b_to_four_momentum p.
(* particle.py:185-198 *)
Definition h_assign_l_sp_u (p x : loc) : H unit :=
  setattr p LU (Some x) ;; set_shape x [2; 1]%nat ;; conv LD l_sp_u_to_l_sp_d p ;; h_r2_from_spinors p ;; h_four_mom r2_sp_b_to_four_momentum p.
(* particle.py:205-226 *)
Definition h_assign_r2_sp cv (p x : loc) : H unit :=
  setattr p R2 (Some x) ;; conv R2B r2_sp_to_r2_sp_b p ;; h_four_mom r2_sp_to_four_momentum p ;; h_spinors (r2_sp_to_r_sp_d cv) (r2_sp_to_l_sp_d cv) p.
(* particle.py:233-254 *)
Definition h_assign_r2_sp_b cv (p x : loc) : H unit :=
  setattr p R2B (Some x) ;; conv R2 r2_sp_b_to_r2_sp p ;; h_four_mom r2_sp_b_to_four_momentum p ;; h_spinors (r2_sp_to_r_sp_d cv) (r2_sp_to_l_sp_d cv) p.
(* particle.py:261-277 *)
Definition h_assign_four_mom cv (p x : loc) : H unit :=
  setattr p FM (Some x) ;; conv FMD four_mom_to_four_mom_d p ;; conv R2 four_mom_d_to_r2_sp p ;; conv R2B four_mom_d_to_r2_sp_b p ;;
  h_spinors (four_mom_to_r_sp_d cv) (four_mom_to_l_sp_d cv) p.
(* particle.py:284-300 *)
Definition h_assign_four_mom_d cv (p x : loc) : H unit :=
  setattr p FMD (Some x) ;; conv FM four_mom_d_to_four_mom p ;; conv R2 four_mom_d_to_r2_sp p ;; conv R2B four_mom_d_to_r2_sp_b p ;;
  h_spinors (four_mom_to_r_sp_d cv) (four_mom_to_l_sp_d cv) p.
(* self.attribute = x; particle.py:125-300 *)
Definition h_assign cv (a : attr) (p x : loc) : H unit :=
  match a with
  | RD => h_assign_r_sp_d p x | LD => h_assign_l_sp_d p x | RU => h_assign_r_sp_u p x | LU => h_assign_l_sp_u p x
  | R2 => h_assign_r2_sp cv p x | R2B => h_assign_r2_sp_b cv p x | FM => h_assign_four_mom cv p x | FMD => h_assign_four_mom_d cv p x
  end.
(* x.T for an attribute that is an array *)
Definition transpose_at (p : loc) (a : attr) : H unit :=
  P <- load_part p ;; match at_ P a with Some l => t <- transpose l ;; setattr p a (Some t) | None => raise AttributeError end.
(* particle.py:330-350; the change of sign is in place *)
Definition h_flip (p : loc) : H unit :=
  P <- load_part p ;;
  match at_ P LD, at_ P RD with
  | Some l, Some r =>
      rt <- transpose r ;; lt <- transpose l ;; setattr p LD (Some rt) ;; setattr p RD (Some lt) ;;
      match hspin P with Some true => scale rt (- (1)) | Some false => scale lt (- (1)) | None => ret tt end ;;
      conv LU l_sp_d_to_l_sp_u p ;; conv RU r_sp_d_to_r_sp_u p
  | _, _ => ret tt
  end ;;
  transpose_at p R2 ;; transpose_at p R2B ;; h_four_mom r2_sp_b_to_four_momentum p.
(* object.__new__ *)
Definition blank_part : hpart := mkHP (fun _ => None) None.
(* particle.py:47-50 *)
Definition h_new_spinors (r l : loc) : H loc :=
  p <- alloc (PartO blank_part) ;; setattr p RD (Some r) ;; conv RU r_sp_d_to_r_sp_u p ;; h_assign_l_sp_d p l ;; ret p.
(* particle.py:45-46 *)
Definition h_new_r2 cv (x : loc) : H loc := p <- alloc (PartO blank_part) ;; h_assign_r2_sp cv p x ;; ret p.
(* particle.py:72-84, the sum of two particles *)
Definition h_add cv (p q : loc) : H loc :=
  a <- read_part p ;; b <- read_part q ;; x <- new_m2 (madd (r2 a) (r2 b)) ;; h_new_r2 cv x.
(* copy.copy, particle.py:75,82,89: a new object with the same arrays *)
Definition h_shallow (p : loc) : H loc := P <- load_part p ;; alloc (PartO P).
(* sum of the particles of a corner, particles.py:173; 0 + p is copy(p) *)
Fixpoint h_sum_from cv (p : loc) (ls : list loc) : H loc :=
  match ls with [] => ret p | q :: t => s <- h_add cv p q ;; h_sum_from cv s t end.
(* particles.py:173 *)
Definition h_sum cv (ls : list loc) : H loc :=
  match ls with [] => raise TypeError | p :: t => c <- h_shallow p ;; h_sum_from cv c t end.

(* ---- copy.deepcopy ---- *)
(* what has been copied already: the copy of each object; particles.py:149 *)
Definition memo := list (loc * loc).
(* particles.py:149 *)
Fixpoint memo_get (m : memo) (l : loc) : option loc :=
  match m with [] => None | (k, v) :: t => if Nat.eqb k l then Some v else memo_get t l end.
(* numpy.ndarray.__deepcopy__: an array with its own memory; particles.py:149-150 *)
Definition deep_arr (m : memo) (l : loc) : H (memo * loc) :=
  match memo_get m l with
  | Some l' => ret (m, l')
  | None => a <- load_arr l ;; xs <- read l ;; l' <- new_arr (shape a) xs ;; ret ((l, l') :: m, l')
  end.
(* the attributes of a particle, one after the other, into p'; particles.py:149-150 *)
Fixpoint deep_attrs (m : memo) (P : hpart) (p' : loc) (ats : list attr) : H memo :=
  match ats with
  | [] => ret m
  | a :: t => match at_ P a with
              | None => deep_attrs m P p' t
              | Some l => ml <- deep_arr m l ;; setattr p' a (Some (snd ml)) ;; deep_attrs (fst ml) P p' t
              end
  end.
(* particles.py:149-150 *)
Definition deep_part (m : memo) (p : loc) : H (memo * loc) :=
  match memo_get m p with
  | Some p' => ret (m, p')
  | None => P <- load_part p ;; p' <- alloc (PartO (mkHP (fun _ => None) (hspin P))) ;;
            m' <- deep_attrs ((p, p') :: m) P p' all_attrs ;; ret (m', p')
  end.
(* particles.py:149 *)
Fixpoint deep_legs (m : memo) (ls : list loc) : H (list loc) :=
  match ls with [] => ret [] | p :: t => mp <- deep_part m p ;; ps' <- deep_legs (fst mp) t ;; ret (snd mp :: ps') end.

(* ---- a point ---- *)
(* sorted(self, key=lambda x: rule[self.index(x)]), particles.py:149 *)
Definition sorted_legs (perm : pstring) (vs : list (particle K)) (ls : list loc) : result (list loc) :=
  match perm with
  | [] => Err ValueError
  | _ => rmap (fun keyed => map snd (ksort keyed))
           (rmapM (fun vl => match nth_error perm (index_of vs (fst vl)) with Some c => Ok (c, snd vl) | None => Err IndexError end) (combine vs ls))
  end.
(* particles.py:146-152: deepcopy of the list, then deepcopy of __dict__ (another memo).
   The Particles object with the shared entries is not kept, nor its oRefVec and masses. *)
Definition h_image_str (perm : pstring) (s : loc) : H loc :=
  S <- load_point s ;;
  vs <- mapH read_part (legs S) ;;
  ls <- lift (sorted_legs perm vs (legs S)) ;;
  ls' <- deep_legs [] ls ;;
  rv <- match refvec S with None => ret None | Some q => mq <- deep_part [] q ;; ret (Some (snd mq)) end ;;
  ns <- load_set (mset S) ;; n' <- alloc (SetO ns) ;;
  alloc (PointO (mkPt ls' rv n' (mvals S))).
(* particles.py:139-142 *)
Definition h_flip_all (s : loc) : H unit := S <- load_point s ;; eachH h_flip (legs S).
(* particles.py:144-158 *)
Definition h_image (rule : pstring * bool) (s : loc) : H loc :=
  t <- h_image_str (fst rule) s ;; (if snd rule then h_flip_all t else ret tt) ;; ret t.
(* particles.py:160-162 *)
Definition h_copy (s : loc) : H loc := S <- load_point s ;; h_image (identity (length (legs S))) s.
(* particles.py:176-191 for an integer index_value; the blocks are new, the spinors of the
   leg are views of them *)
Definition h_fermion (vs : list (particle K)) (corners : list (list Z)) (t : loc) (f : Z * position * Z) : H unit :=
  let '(leg, pos, i) := f in
  c <- lift (getitem corners leg) ;;
  match c with
  | [a; b] =>
      RL <- lift (fermion_spinors pos vs a b) ;;
      _ <- lift (mcol (fst RL) i) ;;
      R <- new_m2 (fst RL) ;; L <- new_m2 (snd RL) ;;
      r <- column R (Z.to_nat (i - 1)) ;; l <- row L (Z.to_nat (i - 1)) ;;
      T <- load_point t ;; p <- lift (getitem (legs T) leg) ;; P <- load_part p ;;
      store p (PartO (mkHP (at_ (set_at LD (Some l) (set_at RD (Some r) P))) (Some (match pos with Up => true | _ => false end)))) ;;
      conv LU l_sp_d_to_l_sp_u p ;; conv RU r_sp_d_to_r_sp_u p
  | _ => raise AssertionError
  end.
(* particles.py:164-192.  The new object gets a new oRefVec, here none, and a new set with the
   same names; the rewriting of masses that are strings is in Masses.v. *)
Definition h_cluster cv (corners : list (list Z)) (fs : list (Z * position * Z)) (s : loc) : H loc :=
  S <- load_point s ;;
  vs <- mapH read_part (legs S) ;;
  ls <- mapH (fun corner => c <- lift (rmapM (getitem (legs S)) corner) ;; h_sum cv c) corners ;;
  n <- alloc (SetO (map fst (mvals S))) ;;
  t <- alloc (PointO (mkPt ls None n (mvals S))) ;;
  eachH (h_fermion vs corners t) fs ;; ret t.
(* Particles(list of particles, fix_mom_cons=False), particles.py:53-55: the entries are kept.
   The new oRefVec is left out. *)
Definition h_new_point (ls : list loc) : H loc := n <- alloc (SetO []) ;; alloc (PointO (mkPt ls None n [])).
(* self[i:j], particles.py:400-403: the entries and oRefVec are shared *)
Definition h_slice (s : loc) (i j : nat) : H loc :=
  S <- load_point s ;; n <- alloc (SetO []) ;; alloc (PointO (mkPt (firstn (j - i) (skipn i (legs S))) (refvec S) n [])).
(* self[i] = p, del self[i], insert, append: particles.py:408-432 *)
Definition with_legs (s : loc) (f : list loc -> result (list loc)) : H unit :=
  S <- load_point s ;; ls <- lift (f (legs S)) ;; store s (PointO (mkPt ls (refvec S) (mset S) (mvals S))).
(* self.oRefVec = p *)
Definition set_refvec (s p : loc) : H unit := S <- load_point s ;; store s (PointO (mkPt (legs S) (Some p) (mset S) (mvals S))).
(* self.name = x for an internal mass, particles.py:81-84 *)
Definition set_mass (s : loc) (n : pystr) (x : K) : H unit :=
  S <- load_point s ;; ns <- load_set (mset S) ;;
  store (mset S) (SetO (if existsb (str_eqb n) ns then ns else ns ++ [n])) ;;
  store s (PointO (mkPt (legs S) (refvec S) (mset S) (dict_set n x (mvals S)))).
End Heap.
Arguments obj K : clear implicits.
Arguments heap K : clear implicits.
Arguments hpoint K : clear implicits.
