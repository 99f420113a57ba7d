(** * Syntax: the part of C++ that the functions of optional.h are written in

    Types of the syntax trees in [Source.v].  Names, types and template arguments
    are kept as text.  [a->b] is written [( *a).b]; comments, attributes, template
    parameter lists and requires clauses are not kept. *)

From Coq Require Import String List ZArith.
Import ListNotations.

(** Expressions (optional.h:955-2804). *)
Inductive expr : Type :=
| EThis                                           (* this *)
| EName (x : string)                              (* a name, possibly qualified *)
| EBool (b : bool)                                (* true, false *)
| ENum (n : nat)                                  (* an integer literal *)
| EStr                                            (* a string literal *)
| EMember (e : expr) (x : string)                 (* e.x, and e.*x as name "*x" *)
| ECall (f : expr) (args : list expr)             (* f(args) *)
| EBrace (t : string) (args : list expr)          (* T{args} *)
| EUn (o : string) (e : expr)                     (* !e, *e, &e *)
| EBin (o : string) (a b : expr)                  (* a == b, a && b, a = b, ... *)
| ECond (c a b : expr)                            (* c ? a : b *)
| ECast (k t : string) (e : expr)                 (* static_cast<T>(e), const_cast<T>(e) *)
| ENew (a : expr) (t : string) (args : list expr) (* ::new (a) T(args) *)
| EDtor (e : expr) (t : string)                   (* e.~T() *)
| EThrow (e : expr)                               (* throw e *)
| EPack (e : expr)                                (* e... *)
| ENoexcept (e : expr)                            (* noexcept(e), the operator *)
| ESizeof (e : expr).                             (* sizeof(e) *)

(** Statements (optional.h:955-2804). *)
Inductive stmt : Type :=
| SExpr (e : expr)                                (* e; *)
| SReturn (e : option expr)                       (* return e; *)
| SIf (cst : bool) (c : expr) (a b : list stmt)   (* if [constexpr] (c) {a} else {b} *)
| SDecl (t x : string) (args : list expr)         (* T x = e;  T x{args}; *)
| SStaticAssert (e : expr)                        (* static_assert(e, ...); *)
| SUsing (x t : string).                          (* using x = t;  using t; *)

(** A parameter; [p_pack]: a function parameter pack [T... x]. *)
Record param : Type := Param { p_type : string; p_name : string; p_pack : bool }.

(** Return types: none (constructors, destructors), a reference ([c]: to const,
    [rv]: [&&]), or anything else. *)
Inductive retty : Type :=
| RNone
| RRef (c rv : bool) (t : string)
| RValue (t : string).

Inductive body : Type :=
| Defaulted                                       (* = default; *)
| Deleted                                         (* = delete; *)
| Body (l : list stmt).

(** A function: class ([""]: a free function), name, static, parameters, cv- and
    ref-qualifier, noexcept specification ([None]: not there; for destructors without
    one [true]), return type, member initialisers, body. *)
Record fundef : Type := Fun {
  f_class : string;
  f_name : string;
  f_static : bool;
  f_params : list param;
  f_const : bool;
  f_ref : string;
  f_noexcept : option expr;
  f_ret : retty;
  f_inits : list (string * list expr);
  f_body : body
}.

(** A class: name, base class, data members with default initialisers, and whether the
    base's constructors are inherited. *)
Record classdef : Type := Class {
  c_name : string;
  c_base : option string;
  c_fields : list (string * option expr);
  c_using : bool
}.
