(** * Base: machine integers, build profiles, outcomes, list helpers.

    Nothing in this file models code of /repo directly: it fixes the meaning of the Rust
    constructs the other files are written with. *)

From Coq Require Export List NArith ZArith Bool Permutation Lia String.
Export ListNotations.
Global Open Scope N_scope.
Global Open Scope list_scope.

(** ** Outcomes of running Rust code *)

(** Why a panic was raised.  The library never inspects panic payloads; the constructors only
    make the theorems more precise. *)
Inductive panic_reason : Type :=
| PAssert        (* assert!, assert_eq!, assert_ne!, expect, unwrap *)
| PDebugAssert   (* debug_assert!, only with debug assertions enabled *)
| POverflow      (* arithmetic overflow, only with overflow checks enabled *)
| PDivZero       (* division or remainder by zero *)
| PIndex         (* slice index / range out of bounds, slice length mismatch *)
| PCapacity      (* "capacity overflow" raised by std's Vec *)
| PChunkZero     (* chunks_exact with chunk size zero *)
| PUnreachable   (* unreachable! in eval_align! *)
| PUser.         (* a user-supplied clone or drop panicked *)

(** Kinds of undefined behaviour the model can detect. *)
Inductive ub_reason : Type :=
| UbOob          (* access outside the initialised elements of a buffer *)
| UbValue        (* bytes read as a value of a type whose representation they are not *)
| UbDealloc.     (* dealloc/realloc of a block that is not live with that layout *)

(** [Abort]: a panic while already unwinding aborts the process. *)
Inductive outcome (A : Type) : Type :=
| Ret (a : A)
| Panic (p : panic_reason)
| UB (u : ub_reason)
| Abort.
Arguments Ret {A} a.
Arguments Panic {A} p.
Arguments UB {A} u.
Arguments Abort {A}.

Definition obind {A B} (o : outcome A) (k : A -> outcome B) : outcome B :=
  match o with
  | Ret a => k a
  | Panic p => Panic p
  | UB u => UB u
  | Abort => Abort
  end.

Notation "'let!' x := o 'in' k" := (obind o (fun x => k))
  (at level 200, x pattern, o at level 100, k at level 200, right associativity).

(** The outcome of unwinding code with outcome [o] after a panic [p]: a second panic while
    unwinding aborts. *)
Definition unwind {A B} (p : panic_reason) (o : outcome A) : outcome B :=
  match o with
  | Ret _ => Panic p
  | Panic _ => Abort
  | UB u => UB u
  | Abort => Abort
  end.

(** Re-type a non-[Ret] outcome; the [Ret] case is never used. *)
Definition retype {A B} (o : outcome A) : outcome B :=
  match o with
  | Ret _ => Abort
  | Panic p => Panic p
  | UB u => UB u
  | Abort => Abort
  end.

(** ** usize on a 64-bit target *)

Definition usize_max : N := 2 ^ 64 - 1.
Definition isize_max : N := 2 ^ 63 - 1.

(** Cargo build profile.  The [dev] profile has both on, the [release] profile both off. *)
Record profile : Type := Profile { debug_assertions : bool; overflow_checks : bool }.
Definition dev : profile := Profile true true.
Definition release : profile := Profile false false.

Definition wrap (n : N) : N := n mod 2 ^ 64.

(** [a * b], [a + b], [a - b] on usize: panic on overflow with overflow checks, wrap otherwise. *)
Definition umul (P : profile) (a b : N) : outcome N :=
  if a * b <=? usize_max then Ret (a * b)
  else if overflow_checks P then Panic POverflow else Ret (wrap (a * b)).

Definition uadd (P : profile) (a b : N) : outcome N :=
  if a + b <=? usize_max then Ret (a + b)
  else if overflow_checks P then Panic POverflow else Ret (wrap (a + b)).

Definition usub (P : profile) (a b : N) : outcome N :=
  if b <=? a then Ret (a - b)
  else if overflow_checks P then Panic POverflow else Ret (wrap (a + 2 ^ 64 - b)).

(** [a / b] and [a % b]: division by zero panics in every profile. *)
Definition udiv (a b : N) : outcome N := if b =? 0 then Panic PDivZero else Ret (a / b).
Definition umod (a b : N) : outcome N := if b =? 0 then Panic PDivZero else Ret (a mod b).

Definition assert_ (b : bool) : outcome unit := if b then Ret tt else Panic PAssert.
Definition debug_assert (P : profile) (b : bool) : outcome unit :=
  if debug_assertions P then (if b then Ret tt else Panic PDebugAssert) else Ret tt.

(** ** Lists indexed by N *)

Definition lenN {A} (l : list A) : N := N.of_nat (List.length l).
Definition firstnN {A} (n : N) (l : list A) : list A := firstn (N.to_nat n) l.
Definition skipnN {A} (n : N) (l : list A) : list A := skipn (N.to_nat n) l.

(** Replace the item at position [i], if there is one. *)
Fixpoint list_set {A} (l : list A) (i : nat) (x : A) : list A :=
  match l, i with
  | [], _ => []
  | _ :: l', O => x :: l'
  | y :: l', S i' => y :: list_set l' i' x
  end.

(** Map with the position. *)
Fixpoint mapi_from {A B} (k : nat) (f : nat -> A -> B) (l : list A) : list B :=
  match l with
  | [] => []
  | x :: l' => f k x :: mapi_from (S k) f l'
  end.
Definition mapi {A B} (f : nat -> A -> B) (l : list A) : list B := mapi_from 0 f l.

(** [slice::chunks_exact(n)] for [n > 0]: consecutive groups of exactly [n], remainder dropped.
    The first argument is fuel; [length l] always suffices because every chunk is non-empty. *)
Fixpoint chunks_fuel {A} (fuel : nat) (n : nat) (l : list A) : list (list A) :=
  match fuel with
  | O => []
  | S fuel' =>
      if (List.length l <? n)%nat then [] else firstn n l :: chunks_fuel fuel' n (skipn n l)
  end.
(** std: chunks_exact panics when the chunk size is zero. *)
Definition chunks_exact {A} (n : N) (l : list A) : outcome (list (list A)) :=
  if n =? 0 then Panic PChunkZero
  else Ret (chunks_fuel (List.length l) (N.to_nat n) l).

(** std: [&l[a..b]]. *)
Definition index_range {A} (l : list A) (a b : N) : outcome (list A) :=
  if (a <=? b) && (b <=? lenN l) then Ret (firstnN (b - a) (skipnN a l)) else Panic PIndex.
