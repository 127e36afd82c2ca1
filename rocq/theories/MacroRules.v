(** * MacroRules: the macros [from_dyn!] and [into_dyn!] of /repo/src/lib.rs:60-195.

    Which calls expand, and to which function.  What the functions do is in DynTable.v.

    The matching rules are those of the Rust reference, "Macros By Example": arms are tried in order;
    a literal token matches itself; [$x:ident] matches one identifier or keyword; [$x:path] parses a
    path, and when the parser fails there the whole call is an error (no later arm is tried); a
    fragment that was matched as a path is forwarded to another macro as one opaque token, which no
    literal token and no [$x:ident] matches; an [ident] fragment is forwarded as the identifier.
    Simplifications: paths have no generic arguments; the body of a function is one node, with the
    list of the variables that occur in it. *)

From Coq Require Import List String Bool.
Import ListNotations.
Local Open Scope string_scope.

(** A token of a macro call. *)
Inductive tok :=
| Id (s : string)               (** identifier or keyword *)
| P (s : string)                (** punctuation *)
| OpaquePath (p : list string). (** a path that an outer macro has matched *)

Definition tok_eqb (a b : tok) : bool :=
  match a, b with
  | Id x, Id y | P x, P y => String.eqb x y
  | _, _ => false
  end.

(** A piece of the left side of an arm. *)
Inductive pat :=
| Lit (t : tok)
| VIdent (x : string)
| VPath (x : string).

(** The functions at the end of the four internal arms. *)
Inductive body := FromOwned | FromSlice | IntoOwned | IntoSlice.

(** The variables that occur in each body, src/lib.rs:88-99, 101-122, 150-161, 163-184. *)
Definition body_vars (b : body) : list string :=
  match b with
  | FromOwned => ["vec"; "trait"; "vtable"]
  | FromSlice => ["slice"; "vtable"]
  | IntoOwned => ["vec"; "trait"]
  | IntoSlice => ["slice"; "trait"]
  end.

(** A piece of the right side of an arm that calls the macro again. *)
Inductive out := OTok (t : tok) | OVar (x : string).
Inductive rhs := Again (o : list out) | Fn (b : body).
Record arm := Arm { a_lhs : list pat; a_rhs : rhs }.

(** What a variable was matched with. *)
Inductive frag := FIdent (s : string) | FPath (p : list string).
Definition binds := list (string * frag).

Fixpoint lookup (x : string) (b : binds) : option frag :=
  match b with
  | [] => None
  | (y, f) :: r => if String.eqb x y then Some f else lookup x r
  end.

(** Words that cannot be a segment of a path. *)
Definition reserved (s : string) : bool :=
  existsb (String.eqb s) ["dyn"; "as"; "fn"; "mut"; "ref"; "let"; "type"; "trait"; "impl"; "where"; "_"].

(** The parser of paths: segments separated by [::]. *)
Fixpoint path_rest (acc : list string) (ts : list tok) : option (list string * list tok) :=
  match ts with
  | P "::" :: Id s :: r => if reserved s then None else path_rest (acc ++ [s])%list r
  | P "::" :: _ => None
  | _ => Some (acc, ts)
  end.
Definition parse_path (ts : list tok) : option (list string * list tok) :=
  match ts with
  | OpaquePath p :: r => Some (p, r)
  | Id s :: r => if reserved s then None else path_rest [s] r
  | _ => None
  end.

Inductive matched := Matched (b : binds) | NoMatch | ParseError.

Fixpoint match_arm (ps : list pat) (ts : list tok) (b : binds) : matched :=
  match ps, ts with
  | [], [] => Matched b
  | [], _ :: _ => NoMatch
  | Lit l :: ps', t :: ts' => if tok_eqb l t then match_arm ps' ts' b else NoMatch
  | VIdent x :: ps', Id s :: ts' =>
      if String.eqb s "_" then NoMatch else match_arm ps' ts' (b ++ [(x, FIdent s)])%list
  | VPath x :: ps', (Id _ | OpaquePath _) :: _ =>
      match parse_path ts with
      | Some (p, ts') => match_arm ps' ts' (b ++ [(x, FPath p)])%list
      | None => ParseError
      end
  | _, _ => NoMatch
  end.

(** Forwarding a variable to the next call. *)
Definition forward (f : frag) : tok :=
  match f with FIdent s => Id s | FPath p => OpaquePath p end.
Fixpoint transcribe (o : list out) (b : binds) : option (list tok) :=
  match o with
  | [] => Some []
  | OTok t :: r => match transcribe r b with Some ts => Some (t :: ts) | None => None end
  | OVar x :: r =>
      match lookup x b, transcribe r b with Some f, Some ts => Some (forward f :: ts) | _, _ => None end
  end.

Inductive result :=
| Expands (b : body) (v : binds)   (** the call becomes this function, with these names filled in *)
| NoRules                          (** "no rules expected the token" *)
| NotInScope                       (** "cannot find macro in this scope" *)
| Error                            (** another compile error *)
| RecursionLimit.

Inductive choice := Chose (r : rhs) (b : binds) | CNone | CError.
Fixpoint choose (arms : list arm) (ts : list tok) : choice :=
  match arms with
  | [] => CNone
  | a :: r =>
      match match_arm (a_lhs a) ts [] with
      | Matched b => Chose (a_rhs a) b
      | NoMatch => choose r ts
      | ParseError => CError
      end
  end.

(** Expansion, down to [limit] nested calls (128 in rustc).  A variable in a body that the left side
    does not bind stays in the output as [$x], which does not parse.  The arms that call the macro
    again name it without [$crate::]: the name is looked up where the user's call is, where it must
    have been imported ([imported]); the user's own call can also name it by its path. *)
Fixpoint expand (imported : bool) (limit : nat) (arms : list arm) (ts : list tok) : result :=
  match limit with
  | O => RecursionLimit
  | S n =>
      match choose arms ts with
      | Chose (Again o) b =>
          if imported then match transcribe o b with Some ts' => expand imported n arms ts' | None => Error end
          else NotInScope
      | Chose (Fn f) b =>
          if forallb (fun x => match lookup x b with Some _ => true | None => false end) (body_vars f)
          then Expands f b else Error
      | CNone => NoRules
      | CError => Error
      end
  end.

(** src/lib.rs:70-87, the six public arms of [from_dyn!]: all have this shape. *)
Definition from_arm (container tag : string) : arm :=
  Arm [Lit (Id container); Lit (P "<"); Lit (Id "dyn"); VPath "trait"; Lit (Id "as"); VPath "vtable"; Lit (P ">")]
      (Again [OTok (P "@"); OTok (Id tag); OTok (Id container); OTok (P "<"); OTok (Id "dyn"); OVar "trait";
              OTok (Id "as"); OVar "vtable"; OTok (P ">")]).

(** src/lib.rs:69-123 *)
Definition from_dyn_arms : list arm :=
  [from_arm "Slice" "slice"; from_arm "SliceMut" "slice"; from_arm "VecDyn" "owned";
   from_arm "SliceCopy" "slice"; from_arm "SliceCopyMut" "slice"; from_arm "VecCopy" "owned";
   Arm [Lit (P "@"); Lit (Id "owned"); VIdent "vec"; Lit (P "<"); Lit (Id "dyn"); VPath "trait"; Lit (Id "as");
        VPath "vtable"; Lit (P ">")] (Fn FromOwned);
   Arm [Lit (P "@"); Lit (Id "slice"); VIdent "slice"; Lit (P "<"); Lit (Id "dyn"); VPath "trait"; Lit (P ">")]
       (Fn FromSlice)].

(** src/lib.rs:131-148, the six public arms of [into_dyn!]. *)
Definition into_arm (container tag : string) (v : string -> pat) : arm :=
  Arm [Lit (Id container); Lit (P "<"); Lit (Id "dyn"); v "trait"; Lit (P ">")]
      (Again [OTok (P "@"); OTok (Id tag); OTok (Id container); OTok (P "<"); OTok (Id "dyn"); OVar "trait";
              OTok (P ">")]).

(** src/lib.rs:130-185 *)
Definition into_dyn_arms : list arm :=
  [into_arm "Slice" "slice" VPath; into_arm "SliceMut" "slice" VIdent; into_arm "VecDyn" "owned" VIdent;
   into_arm "SliceCopy" "slice" VIdent; into_arm "SliceCopyMut" "slice" VIdent; into_arm "VecCopy" "owned" VIdent;
   Arm [Lit (P "@"); Lit (Id "owned"); VIdent "vec"; Lit (P "<"); Lit (Id "dyn"); VIdent "trait"; Lit (P ">")]
       (Fn IntoOwned);
   Arm [Lit (P "@"); Lit (Id "slice"); VIdent "slice"; Lit (P "<"); Lit (Id "dyn"); VPath "trait"; Lit (P ">")]
       (Fn IntoSlice)].

(** A macro call, after [use dync::from_dyn] or [use dync::into_dyn]. *)
Definition from_dyn_call (ts : list tok) : result := expand true 128 from_dyn_arms ts.
Definition into_dyn_call (ts : list tok) : result := expand true 128 into_dyn_arms ts.
(** [dync::from_dyn![..]] and [dync::into_dyn![..]] without them. *)
Definition from_dyn_by_path (ts : list tok) : result := expand false 128 from_dyn_arms ts.
Definition into_dyn_by_path (ts : list tok) : result := expand false 128 into_dyn_arms ts.
