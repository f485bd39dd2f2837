(* What can be seen of an object, and two clients that work on two points. *)
From Coq Require Import List ZArith Bool.
From Verif Require Import Base Fld Particle Index Symm Cluster Str Heap.
Import ListNotations.

Section Spec.
Context {K : Fld}.
Implicit Types (h : heap K).

(* the objects that an object refers to *)
Definition opt_list {A} (o : option A) : list A := match o with Some x => [x] | None => [] end.
Definition refs (o : obj K) : list loc :=
  match o with
  | BufO _ | SetO _ => []
  | ArrO a => [base a]
  | PartO p => flat_map (fun a => opt_list (at_ p a)) all_attrs
  | PointO s => legs s ++ opt_list (refvec s) ++ [mset s]
  end.
(* every reference is to an object that exists *)
Definition no_dangling h : Prop := forall l o l', nth_error h l = Some o -> In l' (refs o) -> (l' < length h)%nat.
(* all that can be seen of an object, following n references *)
Inductive tree := Cut | Missing | Node (o : obj K) (ts : list tree).
Fixpoint look (n : nat) h (l : loc) : tree :=
  match n with
  | O => Cut
  | S n' => match nth_error h l with None => Missing | Some o => Node o (map (look n' h) (refs o)) end
  end.

(* What a client can do with the objects that its variables hold; a variable is a number.
   Some commands have a result, which becomes the next variable. *)
Inductive cmd :=
| GetLeg (x : nat) (i : Z) | GetRef (x : nat) | GetAttr (x : nat) (a : attr)        (* x[i], x.oRefVec, x.r_sp_d, ... *)
| NewArr (sh : list nat) (xs : list K) | Tr (x : nat)                               (* numpy.array, x.T *)
| Write (x k : nat) (v : K) | Scale (x : nat) (v : K) | Shape (x : nat) (sh : list nat)  (* x.flat[k] = v, x *= v, x.shape = sh *)
| SetPrivate (x : nat) (a : attr) (y : nat) | Assign (x : nat) (a : attr) (y : nat)   (* x._r_sp_d = y, x.r_sp_d = y, ... *)
| Flip (x : nat) | FlipAll (x : nat)                                                (* x.angles_for_squares() *)
| SetLeg (x : nat) (i : Z) (y : nat) | DelLeg (x : nat) (i : Z) | InsLeg (x : nat) (i : Z) (y : nat) | Append (x y : nat)
| SetRef (x y : nat) | SetMass (x : nat) (n : pystr) (v : K)
| NewPart (x y : nat) | NewPartR2 (x : nat) | Add (x y : nat) | Shallow (x : nat)        (* Particle((x, y)), Particle(x), x + y, 0 + x *)
| NewPoint (xs : list nat)                                                          (* Particles([x, y, ...]) *)
| Image (x : nat) (rule : pstring * bool) | Copy (x : nat) | Slice (x i j : nat)
| Clusters (x : nat) (corners : list (list Z)) (fs : list (Z * position * Z)).

Definition var (e : list loc) (x : nat) : H (K := K) loc := lift (match nth_error e x with Some l => Ok l | None => Err AttributeError end).
Open Scope mon_scope.
(* the command without a result *)
Definition none (m : H (K := K) unit) : H (K := K) (option loc) := m ;; ret None.
Definition some (m : H (K := K) loc) : H (K := K) (option loc) := l <- m ;; ret (Some l).
Definition run cv (e : list loc) (c : cmd) : H (K := K) (option loc) :=
  match c with
  | GetLeg x i => l <- var e x ;; some (S <- load_point l ;; lift (getitem (legs S) i))
  | GetRef x => l <- var e x ;; S <- load_point l ;; ret (refvec S)
  | GetAttr x a => l <- var e x ;; P <- load_part l ;; ret (at_ P a)
  | NewArr sh xs => some (new_arr sh xs)
  | Tr x => l <- var e x ;; some (transpose l)
  | Write x k v => l <- var e x ;; none (write l k v)
  | Scale x v => l <- var e x ;; none (scale l v)
  | Shape x sh => l <- var e x ;; none (set_shape l sh)
  | SetPrivate x a y => l <- var e x ;; m <- var e y ;; none (setattr l a (Some m))
  | Assign x a y => l <- var e x ;; m <- var e y ;; none (h_assign cv a l m)
  | Flip x => l <- var e x ;; none (h_flip l)
  | FlipAll x => l <- var e x ;; none (h_flip_all l)
  | SetLeg x i y => l <- var e x ;; m <- var e y ;; none (with_legs l (fun ls => setitem ls i m))
  | DelLeg x i => l <- var e x ;; none (with_legs l (fun ls => delitem ls i))
  | InsLeg x i y => l <- var e x ;; m <- var e y ;; none (with_legs l (fun ls => insert ls i m))
  | Append x y => l <- var e x ;; m <- var e y ;; none (with_legs l (fun ls => Ok (ls ++ [m])))
  | SetRef x y => l <- var e x ;; m <- var e y ;; none (set_refvec l m)
  | SetMass x n v => l <- var e x ;; none (set_mass l n v)
  | NewPart x y => l <- var e x ;; m <- var e y ;; some (h_new_spinors l m)
  | NewPartR2 x => l <- var e x ;; some (h_new_r2 cv l)
  | Add x y => l <- var e x ;; m <- var e y ;; some (h_add cv l m)
  | Shallow x => l <- var e x ;; some (h_shallow l)
  | NewPoint xs => ls <- mapH (var e) xs ;; some (h_new_point ls)
  | Image x rule => l <- var e x ;; some (h_image rule l)
  | Copy x => l <- var e x ;; some (h_copy l)
  | Slice x i j => l <- var e x ;; some (h_slice l i j)
  | Clusters x corners fs => l <- var e x ;; some (h_cluster cv corners fs l)
  end.
(* Two clients with their variables take turns; a command that raises has its effects up to
   there.  [true] is the first client. *)
Record clients := mkC { mem : heap K; one : list loc; two : list loc }.
Definition turn cv (st : clients) (wc : bool * cmd) : clients :=
  let '(h', r) := run cv (if fst wc then one st else two st) (snd wc) (mem st) in
  let new := match r with Ok (Some l) => [l] | _ => [] end in
  if fst wc then mkC h' (one st ++ new) (two st) else mkC h' (one st) (two st ++ new).
Definition turns cv (st : clients) (p : list (bool * cmd)) : clients := fold_left (turn cv) p st.
End Spec.
Arguments cmd K : clear implicits.
Arguments clients K : clear implicits.
