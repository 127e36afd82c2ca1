(** * BorrowSpec: what it means that a view is still good.  No other file is needed to read it but
    the parts of Borrow.v and BorrowFlow.v that run programs. *)

From Coq Require Import String List Arith Bool.
Import ListNotations.
From Verif Require Import Borrow BorrowFlow.

(** The variable is not dropped and not handed over. *)
Definition still_there (st : list dvar) (x : nat) : Prop :=
  exists c, nth_error st x = Some (DVar false c).

(** The view still points to the memory its owner has. *)
Definition data_alive (st : list dvar) (v : nat) : Prop :=
  forall gone excl o moves writes tab,
    nth_error st v = Some (DVar gone (CView excl o moves writes tab)) ->
    exists writes', nth_error st o = Some (DVar false (COwner moves writes')).

(** The virtual table the view refers to still exists. *)
Definition table_alive (st : list dvar) (v : nat) : Prop :=
  forall gone excl o moves writes h,
    nth_error st v = Some (DVar gone (CView excl o moves writes (Some h))) -> still_there st h.

(** Nothing was written behind the back of a view for reading. *)
Definition unchanged (st : list dvar) (v : nat) : Prop :=
  forall gone o moves writes tab,
    nth_error st v = Some (DVar gone (CView false o moves writes tab)) ->
    exists moves', nth_error st o = Some (DVar false (COwner moves' writes)).

(** Whenever the program [p] works on a variable, the property holds of it at that moment. *)
Definition whenever_used (p : list stmt) (good : list dvar -> nat -> Prop) : Prop :=
  forall before s rest v, p = before ++ s :: rest -> touches s v -> good (after before) v.

(** The functions a program calls. *)
Definition only_calls (p : list stmt) (ok : fn -> Prop) : Prop :=
  forall f x, In (Call f x) p -> ok f.

(** The safe functions of the crate but for the two constructors whose argument has a lifetime of
    its own. *)
Definition linked (f : fn) : Prop :=
  In f dync_api /\ f_name f <> "SliceCopy::from_slice"%string /\ f_name f <> "Slice::from_slice"%string.

(** The functions a program with branches and loops calls. *)
Definition graph_calls (g : graph) (ok : fn -> Prop) : Prop :=
  forall d f x next, In (Node (ICall d f x) next) (g_nodes g) -> ok f.

(** A program that only looks: every view is made with [&] from a variable of the right kind, and views
    are read.  [ks]: the kinds of the variables there are. *)
Fixpoint only_looks_from (ks : list kind) (p : list stmt) : Prop :=
  match p with
  | [] => True
  | New :: p => only_looks_from (ks ++ [Owner]) p
  | Call f x :: p =>
      f_passing f = ByRef /\ nth_error ks x = Some (f_from f) /\ only_looks_from (ks ++ [f_gives f]) p
  | Read v :: p =>
      (nth_error ks v = Some Shared \/ nth_error ks v = Some Exclusive) /\ only_looks_from ks p
  | _ => False
  end.
Definition only_looks (p : list stmt) : Prop := only_looks_from [] p.
