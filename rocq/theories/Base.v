(* Exceptions as values, and a state monad that keeps the state when an
   exception escapes.  Shared by all model files. *)
From Coq Require Import List ZArith Bool Lia.
Import ListNotations.

(* The python exception classes that the modelled functions raise or catch.
   [OtherException] is a bare `Exception(...)` (e.g. particle.py:52).
   [NotInvertible] is sympy's, caught in particle.py:136 and elsewhere. *)
Inductive exn : Type :=
| ZeroDivisionError | ValueError | TypeError | SystemError | NotInvertible
| IndexError | SyntaxError | KeyError | AttributeError | AssertionError
| NotImplementedError | RecursionError | MyException | OtherException
| Diverges.  (* not a python exception: the modelled loop does not stop within its fuel *)

(* which class an except clause names, e.g. particle.py:136 *)
Definition exn_eqb (a b : exn) : bool :=
  match a, b with
  | ZeroDivisionError, ZeroDivisionError | ValueError, ValueError
  | TypeError, TypeError | SystemError, SystemError
  | NotInvertible, NotInvertible | IndexError, IndexError
  | SyntaxError, SyntaxError | KeyError, KeyError
  | AttributeError, AttributeError | AssertionError, AssertionError
  | NotImplementedError, NotImplementedError
  | RecursionError, RecursionError
  | MyException, MyException | OtherException, OtherException
  | Diverges, Diverges => true
  | _, _ => false
  end.

(* Result of a python call: a value or an escaping exception.; e.g. particle.py:132-138 *)
Inductive result (A : Type) : Type :=
| Ok (a : A)
| Err (e : exn).
Arguments Ok {A} a.
Arguments Err {A} e.

(* one statement after the other: the second one only if the first one did not raise (e.g. particles.py:286-300) *)
Definition rbind {A B} (x : result A) (f : A -> result B) : result B :=
  match x with Ok a => f a | Err e => Err e end.
(* the same with a pure second statement (e.g. particles.py:160-162) *)
Definition rmap {A B} (f : A -> B) (x : result A) : result B :=
  match x with Ok a => Ok (f a) | Err e => Err e end.

Declare Scope res_scope.
Delimit Scope res_scope with res.
Notation "x <-? e ;; f" := (rbind e (fun x => f))
  (at level 61, e at next level, right associativity) : res_scope.

(* [f(x) for x in l], stopping at the first exception (e.g. particles.py:173, 289) *)
Fixpoint rmapM {A B} (f : A -> result B) (l : list A) : result (list B) :=
  match l with
  | [] => Ok []
  | x :: l' => match f x with
               | Err e => Err e
               | Ok y => match rmapM f l' with
                         | Err e => Err e
                         | Ok ys => Ok (y :: ys)
                         end
               end
  end.

(* State monad: a method call returns the object's new state together with
   its result; if an exception escapes, the state is the one reached so far.; e.g. the setters particle.py:121-300 and fix_mom_cons, particles.py:282-300 *)
Definition M (S A : Type) : Type := S -> S * result A.
(* return a (e.g. particles.py:142) *)
Definition ret {S A} (a : A) : M S A := fun s => (s, Ok a).
(* raise e (e.g. particle.py:52) *)
Definition raise {S A} (e : exn) : M S A := fun s => (s, Err e).
(* m; f with the value of m (e.g. particle.py:125-138) *)
Definition bind {S A B} (m : M S A) (f : A -> M S B) : M S B :=
  fun s => match m s with
           | (s', Ok a) => f a s'
           | (s', Err e) => (s', Err e)
           end.
(* reading self (e.g. particle.py:126) *)
Definition get {S} : M S S := fun s => (s, Ok s).
(* assigning to attributes of self (e.g. particle.py:127) *)
Definition modify {S} (f : S -> S) : M S unit := fun s => (f s, Ok tt).
(* an expression without side effects (e.g. particles.py:294) *)
Definition lift {S A} (r : result A) : M S A := fun s => (s, r).
(* try: m except (the classes accepted by p): h; e.g. particle.py:132-138, particles_variety.py:38-48 *)
Definition try_except {S A} (m : M S A) (p : exn -> bool) (h : M S A) : M S A :=
  fun s => match m s with
           | (s', Ok a) => (s', Ok a)
           | (s', Err e) => if p e then h s' else (s', Err e)
           end.

Declare Scope mon_scope.
Delimit Scope mon_scope with mon.
Notation "x <- e ;; f" := (bind e (fun x => f))
  (at level 61, e at next level, right associativity) : mon_scope.
Notation "e ;; f" := (bind e (fun _ => f))
  (at level 61, right associativity) : mon_scope.

Lemma rmapM_length {A B} (f : A -> result B) l ys :
  rmapM f l = Ok ys -> length ys = length l.
Proof.
  revert ys; induction l as [|x l IH]; cbn; intros ys H.
  - inversion H; reflexivity.
  - destruct (f x); [|discriminate].
    destruct (rmapM f l); [|discriminate].
    inversion H; subst; cbn; f_equal; apply IH; reflexivity.
Qed.

Lemma rmapM_ext {A B} (f g : A -> result B) l :
  (forall x, In x l -> f x = g x) -> rmapM f l = rmapM g l.
Proof.
  induction l as [|x l IH]; cbn; intros H; [reflexivity|].
  rewrite <- (H x) by (left; reflexivity).
  rewrite IH by (intros y Hy; apply H; right; exact Hy).
  reflexivity.
Qed.

(* for statements and examples: the call raised e (python's except, e.g. particle.py:136) *)
Definition is_err {A} (e : exn) (r : result A) : bool :=
  match r with Err e' => exn_eqb e' e | Ok _ => false end.
(* for statements and examples: the call returned (any call, e.g. particles.py:144) *)
Definition is_ok {A} (r : result A) : bool := match r with Ok _ => true | Err _ => false end.
Lemma is_err_ok {A} e (r : result A) : is_err e r = true -> r = Err e.
Proof. destruct r as [a|e']; cbn; [discriminate|]. destruct e', e; cbn; congruence. Qed.
(* for examples: the value of a call that returned (any call, e.g. particles.py:144) *)
Definition get_ok {A} (d : A) (r : result A) : A := match r with Ok a => a | Err _ => d end.
Lemma get_ok_ok {A} (d : A) (r : result A) : is_ok r = true -> r = Ok (get_ok d r).
Proof. destruct r; [reflexivity|discriminate]. Qed.
