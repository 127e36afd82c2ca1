(** * BorrowFlow: the borrow rules for programs with branches and loops.

    A program is a graph: every node does one statement on named local variables and lists the nodes
    that may come next (a branch has several, a loop leads back).  Every run is a walk through the
    graph; written down statement by statement, with a new name for every value, it is a program of
    Borrow.v, and its effects are the ones given there.

    The rules are those of rustc (trusted base): types are fixed per local; liveness is computed over
    the graph; what a local may hold and what it may borrow from is joined where paths meet.
    Simplifications: a local is empty when it is given a new value (the drop that an assignment or the
    end of a scope implies is a statement of its own, [IDrop], which does nothing for a local that was
    moved out of on the path taken, as drop flags do). *)

From Coq Require Import List Arith Bool.
Import ListNotations.
From Verif Require Import Borrow.

Inductive instr : Type :=
| INew (d : nat)                    (* d = a new owner *)
| ICall (d : nat) (f : fn) (x : nat)(* d = f(x) *)
| IGrow (x : nat)
| IRead (v : nat)
| IWrite (v : nat)
| IDrop (x : nat)
| INothing.                         (* a test, a jump *)

Record node : Type := Node { n_do : instr; n_next : list nat }.
(** The kind of every local, and the nodes; node 0 is the first. *)
Record graph : Type := Graph { g_kinds : list kind; g_nodes : list node }.

(** ** Runs *)

(** A walk: the nodes done one after the other, starting with the given one.  It may stop anywhere. *)
Inductive walk (g : graph) : nat -> list nat -> Prop :=
| walk_stop l : walk g l []
| walk_last l n : nth_error (g_nodes g) l = Some n -> walk g l [l]
| walk_step l n l' path :
    nth_error (g_nodes g) l = Some n -> In l' (n_next n) -> walk g l' path -> walk g l (l :: path).

Definition upd {A} (x : nat) (a : A) (f : nat -> A) : nat -> A :=
  fun y => if y =? x then a else f y.

(** The statements a run does.  [now] tells which value (numbered in order of creation) a local holds;
    [n] values were made so far.  [None]: the run uses a local that holds nothing, or gives a new value
    to a local that still holds one. *)
Fixpoint trail (g : graph) (now : nat -> option nat) (n : nat) (path : list nat)
  : option (list stmt) :=
  match path with
  | [] => Some []
  | l :: path =>
      match nth_error (g_nodes g) l with
      | None => None
      | Some nd =>
          let one s now' n' :=
            match trail g now' n' path with Some p => Some (s :: p) | None => None end in
          match n_do nd with
          | INew d =>
              match now d with None => one New (upd d (Some n) now) (S n) | Some _ => None end
          | ICall d f x =>
              match now x, now d with
              | Some i, None =>
                  let now' := match f_passing f with ByValue => upd x None now | _ => now end in
                  one (Call f i) (upd d (Some n) now') (S n)
              | _, _ => None
              end
          | IGrow x => match now x with Some i => one (Grow i) now n | None => None end
          | IRead x => match now x with Some i => one (Read i) now n | None => None end
          | IWrite x => match now x with Some i => one (Write i) now n | None => None end
          | IDrop x =>
              match now x with
              | Some i => one (Drop i) (upd x None now) n
              | None => trail g now n path
              end
          | INothing => trail g now n path
          end
      end
  end.

(** The run along [path] does the statements [p]. *)
Definition run_does (g : graph) (path : list nat) (p : list stmt) : Prop :=
  walk g 0 path /\ trail g (fun _ => None) 0 path = Some p.

(** ** The rules *)

(** What the compiler knows of a local before a node: whether it may hold a value, whether it may hold
    none, and what it may borrow from. *)
Record lvar : Type := LVar { l_full : bool; l_empty : bool; l_loans : list (nat * bool) }.
(** Before a node: the locals used later, and what is known of every local. *)
Record point : Type := Point { p_live : list nat; p_vars : list lvar }.

Definition no_var : lvar := LVar false true [].
Definition var_at (a : list lvar) (x : nat) : lvar := nth x a no_var.
Definition mem (x : nat) (l : list nat) : bool := existsb (Nat.eqb x) l.

Definition touched_local (i : instr) : option nat :=
  match i with
  | INew _ | INothing => None
  | ICall _ _ x | IGrow x | IRead x | IWrite x | IDrop x => Some x
  end.
Definition defined (i : instr) : option nat :=
  match i with INew d | ICall d _ _ => Some d | _ => None end.

(** No local that is used later borrows [x] in a way that forbids the access. *)
Definition no_conflict (a : list lvar) (live_after : list nat) (x : nat) (exclusive : bool) : bool :=
  forallb (fun v => negb (l_full (var_at a v)
                          && existsb (conflicts x exclusive) (l_loans (var_at a v)))) live_after.
Definition has (g : graph) (x : nat) (k : kind) : bool :=
  match nth_error (g_kinds g) x with Some k' => kind_eqb k' k | None => false end.
Definition access (a : list lvar) (live_after : list nat) (x : nat) (exclusive : bool) : bool :=
  negb (l_empty (var_at a x)) && no_conflict a live_after x exclusive.

Definition instr_ok (g : graph) (a : list lvar) (live_after : list nat) (i : instr) : bool :=
  match i with
  | INew d => has g d Owner && negb (l_full (var_at a d))
  | ICall d f x =>
      has g x (f_from f) && has g d (f_gives f) && negb (l_full (var_at a d))
      && access a live_after x (wants (f_passing f))
      && match f_tie f, f_passing f with ToCall, ByValue => false | _, _ => true end
  | IGrow x => has g x Owner && access a live_after x true
  | IRead x => (has g x Shared || has g x Exclusive) && access a live_after x false
  | IWrite x => has g x Exclusive && access a live_after x true
  | IDrop x => negb (l_full (var_at a x)) || no_conflict a live_after x true
  | INothing => true
  end.

(** What is known after a statement. *)
Definition put (x : nat) (b : lvar) (a : nat -> lvar) : nat -> lvar := upd x b a.
Definition transfer (a : nat -> lvar) (i : instr) : nat -> lvar :=
  match i with
  | INew d => put d (LVar true false []) a
  | ICall d f x =>
      let loans := match f_tie f with
                   | ToCall => (x, wants (f_passing f)) :: l_loans (a x)
                   | ToData => l_loans (a x)
                   | ToNothing => []
                   end in
      let a' := match f_passing f with ByValue => put x no_var a | _ => a end in
      put d (LVar true false loans) a'
  | IDrop x => put x no_var a
  | _ => a
  end.

(** Where paths meet, whatever one of them allows is possible. *)
Definition loan_eqb (a b : nat * bool) : bool := (fst a =? fst b) && Bool.eqb (snd a) (snd b).
Definition covers (b a : lvar) : bool :=
  implb (l_full a) (l_full b) && implb (l_empty a) (l_empty b)
  && forallb (fun x => existsb (loan_eqb x) (l_loans b)) (l_loans a).

Definition live_ok (live_before live_after : list nat) (i : instr) : bool :=
  match touched_local i with Some x => mem x live_before | None => true end
  && forallb (fun v => match defined i with
                       | Some d => (v =? d) || mem v live_before
                       | None => mem v live_before
                       end) live_after.

Definition next_live (known : list point) (nd : node) : list nat :=
  flat_map (fun l => match nth_error known l with Some pt => p_live pt | None => [] end) (n_next nd).

Definition node_ok (g : graph) (known : list point) (pt : point) (nd : node) : bool :=
  let live_after := next_live known nd in
  instr_ok g (p_vars pt) live_after (n_do nd)
  && live_ok (p_live pt) live_after (n_do nd)
  && forallb (fun l =>
       match nth_error known l with
       | None => false
       | Some pt' =>
           forallb (fun x => covers (var_at (p_vars pt') x)
                                    (transfer (var_at (p_vars pt)) (n_do nd) x))
                   (seq 0 (length (g_kinds g)))
       end) (n_next nd).

Fixpoint nodes_ok (g : graph) (known here : list point) (nds : list node) : bool :=
  match here, nds with
  | [], [] => true
  | pt :: here, nd :: nds => node_ok g known pt nd && nodes_ok g known here nds
  | _, _ => false
  end.

(** [known] is a solution: it holds at the start, when all locals are empty, and every node is allowed
    and leads to what is known of the next ones. *)
Definition solution (g : graph) (known : list point) : bool :=
  match known with
  | [] => false
  | pt :: _ => forallb (fun x => l_empty (var_at (p_vars pt) x)) (seq 0 (length (g_kinds g)))
  end
  && nodes_ok g known known (g_nodes g).
(** The compiler accepts the program: what it computes is a solution (its analysis takes the least
    candidate; a larger one allows less). *)
Definition accepts (g : graph) : Prop := exists known, solution g known = true.

(** ** Computing what is known: repeated passes over the nodes, each adding what follows from the
    last (only used to exhibit accepted programs). *)

Definition join_var (a b : lvar) : lvar :=
  LVar (l_full a || l_full b) (l_empty a || l_empty b)
       (l_loans a ++ filter (fun x => negb (existsb (loan_eqb x) (l_loans a))) (l_loans b)).
Definition join_list (a b : list nat) : list nat := a ++ filter (fun x => negb (mem x a)) b.
Definition live_before (live_after : list nat) (i : instr) : list nat :=
  join_list (match touched_local i with Some x => [x] | None => [] end)
            (match defined i with
             | Some d => filter (fun v => negb (v =? d)) live_after
             | None => live_after
             end).
Fixpoint mapi {A B} (f : nat -> A -> B) (n : nat) (l : list A) : list B :=
  match l with [] => [] | a :: l => f n a :: mapi f (S n) l end.
Definition pass (g : graph) (known : list point) : list point :=
  let n := length (g_kinds g) in
  let nd l := nth l (g_nodes g) (Node INothing []) in
  let known := mapi (fun l pt => Point (join_list (p_live pt) (live_before (next_live known (nd l)) (n_do (nd l)))) (p_vars pt)) 0 known in
  fold_left (fun known l =>
    match nth_error known l with
    | None => known
    | Some pt =>
        fold_left (fun known l' =>
          match nth_error known l' with
          | None => known
          | Some pt' =>
              set_nth l' (Point (p_live pt')
                (map (fun x => join_var (var_at (p_vars pt') x)
                                        (transfer (var_at (p_vars pt)) (n_do (nd l)) x)) (seq 0 n))) known
          end) (n_next (nd l)) known
    end) (seq 0 (length known)) known.
Definition infer (g : graph) (passes : nat) : list point :=
  let n := length (g_kinds g) in
  let start := Point [] (repeat no_var n) in
  let other := Point [] (repeat (LVar false false []) n) in
  Nat.iter passes (pass g)
    (match g_nodes g with [] => [] | _ :: r => start :: map (fun _ => other) r end).
