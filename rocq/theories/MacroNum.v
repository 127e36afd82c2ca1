(** * MacroNum: the macro [call_numeric_buffer_fn!] of /repo/src/macros.rs:35-90.

    Which calls expand, to which code, and what the code evaluates.  The matching rules are those of
    the Rust reference, "Macros By Example" (see MacroRules.v): arms are tried in order; a repetition
    [$($x:kind),*] takes items separated by commas, and after a comma there must be an item; a
    matched expression or block is forwarded as one opaque piece, which [expr] or [block] match again
    and [ident] does not.
    Simplification: an argument is one piece, already parsed as an expression; a block likewise. *)

From Verif Require Import Base Numeric.
From Coq Require Import String List Bool.
Import ListNotations.
Local Open Scope string_scope.
Local Open Scope list_scope.

(** An expression: a plain name, or anything else (known by a number). *)
Inductive expr := EName (s : string) | EOther (n : N).

(** A piece of a macro call. *)
Inductive piece :=
| Id (s : string)     (** identifier or keyword *)
| Pu (s : string)     (** punctuation *)
| Ex (e : expr)       (** an expression that is not a plain name, or that an outer call has matched *)
| Bl (n : N).         (** a block *)

Inductive kind := KIdent | KExpr | KBlock.
Inductive frag := FIdent (s : string) | FExpr (e : expr) | FBlock (n : N).

(** A piece of the left side of an arm. *)
Inductive pat :=
| Lit (p : piece)
| One (k : kind) (x : string)        (** [$x:kind] *)
| Many (k : kind) (x : string).      (** [$($x:kind),*] *)

Definition piece_eqb (a b : piece) : bool :=
  match a, b with Id x, Id y | Pu x, Pu y => String.eqb x y | _, _ => false end.

(** The fragment of a kind that a piece is. *)
Definition as_kind (k : kind) (p : piece) : option frag :=
  match k, p with
  | KIdent, Id s => if String.eqb s "_" then None else Some (FIdent s)
  | KExpr, Id s => if String.eqb s "_" then None else Some (FExpr (EName s))
  | KExpr, Ex e => Some (FExpr e)
  | KBlock, Bl n => Some (FBlock n)
  | _, _ => None
  end.

(** A repetition: the fragments and the rest of the call; [None] if a comma is not followed by an item. *)
Fixpoint take_more (k : kind) (ts : list piece) : option (list frag * list piece) :=
  match ts with
  | Pu "," :: t :: r =>
      match as_kind k t with
      | Some f => match take_more k r with Some (fs, r') => Some (f :: fs, r') | None => None end
      | None => None
      end
  | Pu "," :: [] => None
  | _ => Some ([], ts)
  end.
Definition take_many (k : kind) (ts : list piece) : option (list frag * list piece) :=
  match ts with
  | t :: r =>
      match as_kind k t with
      | Some f => match take_more k r with Some (fs, r') => Some (f :: fs, r') | None => None end
      | None => Some ([], ts)
      end
  | [] => Some ([], [])
  end.

Definition binds := list (string * list frag).

Fixpoint match_arm (ps : list pat) (ts : list piece) (b : binds) : option binds :=
  match ps with
  | [] => match ts with [] => Some b | _ => None end
  | Lit l :: ps' =>
      match ts with
      | t :: ts' => if piece_eqb l t then match_arm ps' ts' b else None
      | [] => None
      end
  | One k x :: ps' =>
      match ts with
      | t :: ts' =>
          match as_kind k t with Some f => match_arm ps' ts' (b ++ [(x, [f])]) | None => None end
      | [] => None
      end
  | Many k x :: ps' =>
      match take_many k ts with
      | Some (fs, ts') => match_arm ps' ts' (b ++ [(x, fs)])
      | None => None
      end
  end.

(** The right side of an arm: another call of the macro, or the dispatch.  A row [(g, c)] of the
    dispatch is [x if x == TypeId::of::<g>() => fn::<c, ..>(..)]. *)
Inductive out := OLit (p : piece) | OVar (x : string) | OMany (x : string).
Inductive rhs := Again (o : list out) | Dispatch (rows : list (numty * numty)) (method : bool).
Record arm := Arm { a_lhs : list pat; a_rhs : rhs }.

Fixpoint lookup (x : string) (b : binds) : option (list frag) :=
  match b with
  | [] => None
  | (y, f) :: r => if String.eqb x y then Some f else lookup x r
  end.
Definition forward (f : frag) : piece :=
  match f with FIdent s => Id s | FExpr e => Ex e | FBlock n => Bl n end.
(** [$($x),*]. *)
Fixpoint commas (ps : list piece) : list piece :=
  match ps with
  | [] => []
  | p :: ps' => match ps' with [] => [p] | _ => p :: Pu "," :: commas ps' end
  end.
Fixpoint transcribe (o : list out) (b : binds) : option (list piece) :=
  match o with
  | [] => Some []
  | OLit p :: r => match transcribe r b with Some ts => Some (p :: ts) | None => None end
  | OVar x :: r =>
      match lookup x b, transcribe r b with Some [f], Some ts => Some (forward f :: ts) | _, _ => None end
  | OMany x :: r =>
      match lookup x b, transcribe r b with
      | Some fs, Some ts => Some (commas (map forward fs) ++ ts)
      | _, _ => None
      end
  end.

(** The code a call becomes: [let buf = data; match buf.element_type_id() { rows, _ => err }], where
    the call in a row is [fn::<c, params>(buf, args)] or [buf.fn::<c, params>(args)]. *)
Record code := Code {
  c_data : expr; c_rows : list (numty * numty); c_method : bool; c_fn : string;
  c_params : list string; c_args : list expr; c_err : N }.

Definition ident_of (f : frag) : option string := match f with FIdent s => Some s | _ => None end.
Definition expr_of (f : frag) : option expr :=
  match f with FExpr e => Some e | FIdent s => Some (EName s) | FBlock _ => None end.
Fixpoint all_of {A B} (f : A -> option B) (l : list A) : option (list B) :=
  match l with
  | [] => Some []
  | x :: r => match f x, all_of f r with Some y, Some ys => Some (y :: ys) | _, _ => None end
  end.
Definition fill (rows : list (numty * numty)) (method : bool) (b : binds) : option code :=
  match lookup "data" b, lookup "fn" b, lookup "params" b, lookup "args" b, lookup "err" b with
  | Some [d], Some [FIdent f], Some ps, Some xs, Some [FBlock e] =>
      match expr_of d, all_of ident_of ps, all_of expr_of xs with
      | Some d', Some ps', Some xs' => Some (Code d' rows method f ps' xs' e)
      | _, _, _ => None
      end
  | _, _, _, _, _ => None
  end.

Inductive result :=
| Expands (c : code)
| NoRules              (** "no rules expected the token" *)
| NotInScope           (** "cannot find macro in this scope" *)
| Error                (** another compile error *)
| RecursionLimit.

Fixpoint choose (arms : list arm) (ts : list piece) : option (rhs * binds) :=
  match arms with
  | [] => None
  | a :: r =>
      match match_arm (a_lhs a) ts [] with Some b => Some (a_rhs a, b) | None => choose r ts end
  end.
(** Expansion, down to [limit] nested calls (128 in rustc).  The arms that call the macro again name it
    without [$crate::]: the name is looked up where the user's call is, where it must have been
    imported ([imported]); the user's own call can also name it by its path. *)
Fixpoint expand (imported : bool) (limit : nat) (arms : list arm) (ts : list piece) : result :=
  match limit with
  | O => RecursionLimit
  | S n =>
      match choose arms ts with
      | Some (Again o, b) =>
          if imported then match transcribe o b with Some ts' => expand imported n arms ts' | None => Error end
          else NotInScope
      | Some (Dispatch rows m, b) => match fill rows m b with Some c => Expands c | None => Error end
      | None => NoRules
      end
  end.

(** src/macros.rs:37: [$fn:ident ::<_,$($params:ident),*>( $data:expr, $($args:expr),* ) or $err:block],
    with the rows of lines 42-51. *)
Definition fn_arm : arm :=
  Arm [One KIdent "fn"; Lit (Pu "::"); Lit (Pu "<"); Lit (Id "_"); Lit (Pu ","); Many KIdent "params"; Lit (Pu ">");
       Lit (Pu "("); One KExpr "data"; Lit (Pu ","); Many KExpr "args"; Lit (Pu ")"); Lit (Id "or"); One KBlock "err"]
      (Dispatch [(U8, U8); (I8, I8); (U16, U16); (I16, I16); (U32, U32); (I32, I32); (U64, U64); (I64, I64);
                 (F32, F32); (F64, F64)] false).
(** src/macros.rs:58-60: one type parameter. *)
Definition fn_one_param_arm : arm :=
  Arm [One KIdent "fn"; Lit (Pu "::"); Lit (Pu "<"); Lit (Id "_"); Lit (Pu ">");
       Lit (Pu "("); Many KExpr "args"; Lit (Pu ")"); Lit (Id "or"); One KBlock "err"]
      (Again [OVar "fn"; OLit (Pu "::"); OLit (Pu "<"); OLit (Id "_"); OLit (Pu ","); OLit (Pu ">");
              OLit (Pu "("); OMany "args"; OLit (Pu ")"); OLit (Id "or"); OVar "err"]).
(** src/macros.rs:62-64: one argument. *)
Definition fn_one_arg_arm : arm :=
  Arm [One KIdent "fn"; Lit (Pu "::"); Lit (Pu "<"); Lit (Id "_"); Lit (Pu ","); Many KIdent "params"; Lit (Pu ">");
       Lit (Pu "("); One KExpr "data"; Lit (Pu ")"); Lit (Id "or"); One KBlock "err"]
      (Again [OVar "fn"; OLit (Pu "::"); OLit (Pu "<"); OLit (Id "_"); OLit (Pu ","); OMany "params"; OLit (Pu ">");
              OLit (Pu "("); OVar "data"; OLit (Pu ","); OLit (Pu ")"); OLit (Id "or"); OVar "err"]).
(** src/macros.rs:66: methods, with the rows of lines 71-80. *)
Definition method_arm : arm :=
  Arm [One KIdent "data"; Lit (Pu "."); One KIdent "fn"; Lit (Pu "::"); Lit (Pu "<"); Lit (Id "_"); Lit (Pu ",");
       Many KIdent "params"; Lit (Pu ">"); Lit (Pu "("); Many KExpr "args"; Lit (Pu ")"); Lit (Id "or");
       One KBlock "err"]
      (Dispatch [(U8, U8); (I8, I8); (U16, U16); (I16, I16); (U32, U32); (I32, I32); (U64, U64); (I64, I64);
                 (F32, F32); (F64, F64)] true).
(** src/macros.rs:87-89: methods with one type parameter. *)
Definition method_one_param_arm : arm :=
  Arm [One KIdent "data"; Lit (Pu "."); One KIdent "fn"; Lit (Pu "::"); Lit (Pu "<"); Lit (Id "_"); Lit (Pu ">");
       Lit (Pu "("); Many KExpr "args"; Lit (Pu ")"); Lit (Id "or"); One KBlock "err"]
      (Again [OVar "data"; OLit (Pu "."); OVar "fn"; OLit (Pu "::"); OLit (Pu "<"); OLit (Id "_"); OLit (Pu ",");
              OLit (Pu ">"); OLit (Pu "("); OMany "args"; OLit (Pu ")"); OLit (Id "or"); OVar "err"]).

(** src/macros.rs:36-90, the arms in order. *)
Definition numeric_arms : list arm :=
  [fn_arm; fn_one_param_arm; fn_one_arg_arm; method_arm; method_one_param_arm].
(** [call_numeric_buffer_fn!(..)] after [use dync::call_numeric_buffer_fn], and
    [dync::call_numeric_buffer_fn!(..)] without it. *)
Definition numeric_call (ts : list piece) : result := expand true 128 numeric_arms ts.
Definition numeric_by_path (ts : list piece) : result := expand false 128 numeric_arms ts.

(** What the code evaluates, in order. *)
Inductive event :=
| Evaluated (e : expr)                                          (** the buffer or an argument *)
| Called (method : bool) (f : string) (t : numty) (params : list string) (** with the buffer, then the arguments *)
| FellBack (n : N).
(** src/macros.rs:38-55 and 67-84, for a buffer of element type [t]. *)
Definition run_code (nid : numty -> tyid) (t : tyid) (c : code) : list event :=
  Evaluated (c_data c) ::
  match find (fun r => N.eqb t (nid (fst r))) (c_rows c) with
  | Some (_, k) => map Evaluated (c_args c) ++ [Called (c_method c) (c_fn c) k (c_params c)]
  | None => [FellBack (c_err c)]
  end.
