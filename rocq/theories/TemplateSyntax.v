(** * TemplateSyntax: syntax trees of template definitions

    The types of the trees in [Templates.v], which tools/cpp2coq.py --templates writes from
    /repo/include/tiny/optional.h. *)

From Coq Require Import String List.

(** Type and constant expressions.  [typename], [impl::] and [tiny::] are dropped;
    [TxText]: text that is not taken apart (noexcept(...), declval). *)
Inductive texpr : Type :=
| TxName (x : string)
| TxApp (f : string) (args : list texpr)          (* f<args> *)
| TxMem (e : texpr) (x : string)                  (* e::x *)
| TxNot (e : texpr)
| TxAnd (a b : texpr)
| TxOr (a b : texpr)
| TxNe (a b : texpr)
| TxDecltype (e : texpr)
| TxBool (b : bool)
| TxText (s : string).

(** Members of a class: using x = e, static constexpr auto x = e, static_assert(e). *)
Inductive titem : Type :=
| IUsing (x : string) (e : texpr)
| IConst (x : string) (e : texpr)
| IAssert (e : texpr).

Inductive tkind : Type := TClass | TAlias | TVariable.

(** A template: name, kind, #if conditions, parameters (name, pack?, default), arguments of
    a specialization, base class or right hand side (with the #if conditions of each
    alternative), members (with their #if conditions). *)
Record tdef : Type := Template {
  td_name : string;
  td_kind : tkind;
  td_guard : list string;
  td_params : list (string * bool * option texpr);
  td_pattern : option (list texpr);
  td_body : list (list string * texpr);
  td_items : list (list string * titem)
}.
