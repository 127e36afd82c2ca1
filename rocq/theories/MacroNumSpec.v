(** * MacroNumSpec: the calls of [call_numeric_buffer_fn!] that a user writes, and what they should do. *)

From Verif Require Import Base Numeric MacroNum.
From Coq Require Import String List Bool.
Import ListNotations.
Local Open Scope string_scope.
Local Open Scope list_scope.

(** A name the user may write. *)
Definition legal (s : string) : Prop := s <> "_".

(** An expression as the user writes it. *)
Definition written (e : expr) : piece := match e with EName s => Id s | EOther _ => Ex e end.
Definition legal_expr (e : expr) : Prop := match e with EName s => legal s | EOther _ => True end.

(** [x, y, z]. *)
Fixpoint listed (l : list piece) : list piece :=
  match l with
  | [] => []
  | [p] => [p]
  | p :: r => p :: Pu "," :: listed r
  end.

(** [<_>] or [<_, A, B>]. *)
Definition type_list (params : list string) : list piece :=
  [Pu "<"] ++ listed (Id "_" :: map Id params) ++ [Pu ">"].
Definition arg_list (args : list expr) : list piece := [Pu "("] ++ listed (map written args) ++ [Pu ")"].

(** [f::<_, params>(data, args) or { err }]. *)
Definition function_call (f : string) (params : list string) (args : list expr) (err : N) : list piece :=
  [Id f; Pu "::"] ++ type_list params ++ arg_list args ++ [Id "or"; Bl err].
(** [data.f::<_, params>(args) or { err }]. *)
Definition method_call (data f : string) (params : list string) (args : list expr) (err : N) : list piece :=
  [Id data; Pu "."] ++ function_call f params args err.

(** The ten number types of the documentation. *)
Definition ten_types : list numty := [U8; U16; U32; U64; I8; I16; I32; I64; F32; F64].

(** What a call should do for a buffer of element type [t]: evaluate the buffer, once; then, if [t] is
    one of the ten types, the arguments, once and in order, and call the function with that type; else
    the fallback. *)
Definition does (nid : numty -> tyid) (r : result) (data : expr) (method : bool) (f : string)
    (params : list string) (args : list expr) (err : N) : Prop :=
  exists c, r = Expands c /\
    (forall k, In k ten_types ->
       run_code nid (nid k) c = [Evaluated data] ++ map Evaluated args ++ [Called method f k params]) /\
    (forall t, ~ In t (map nid ten_types) -> run_code nid t c = [Evaluated data; FellBack err]).

(** The value of a call, when the function's is [f k] at type [k] and the fallback's is [err]. *)
Definition result_of {A} (f : numty -> A) (err : A) (l : list event) : option A :=
  match last l (FellBack 0) with
  | Called _ _ k _ => Some (f k) | FellBack _ => Some err | Evaluated _ => None end.

(** The library's own calls: src/vec_copy.rs:743 and src/vec_dyn.rs:663 (which differ in the buffer
    expression and the fallback only), src/vec_copy.rs:967. *)
Definition library_calls : list (list piece) :=
  [ function_call "convert_into_vec" ["T"; "V"] [EOther 0] 0;
    method_call "self" "reinterpret_display" [] [EName "f"] 0 ].
