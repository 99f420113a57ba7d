(** * Explicit: which constructors and conversion functions of the public classes the
    compiler may use without being asked (C77)

    Read from the declarations in optional.h ([conversions] in DataText.v); what is marked
    explicit decides whether [optional<T> o = {...}], an argument or a return value, or an
    arithmetic use of an optional compile. *)

From Coq Require Import String List Bool.
From Verif Require Import Syntax TemplateSyntax DataText.
Import ListNotations.
Local Open Scope string_scope.

(** What an expression that is converted can be: nothing ([{}]), another optional of the
    same class as lvalue or rvalue, std::nullopt, std::in_place followed by anything, the
    tag of transform (optional.h:1473-1476) followed by anything, one other value.  The
    kinds of parameter lists that std::optional has, without those for optionals of other
    types, which the header does not declare (optional.h:1500-1507). *)
Inductive kind : Type :=
| KNothing
| KCopy
| KMove
| KNullopt
| KInPlace
| KTag
| KValue.

(** The parameter list [ps] of a constructor of the class [c] is one for [k]. *)
Definition takes (c : string) (ps : list param) (k : kind) : Prop :=
  match k with
  | KNothing => ps = []
  | KCopy => map p_type ps = [c ++ " const&"]
  | KMove => map p_type ps = [c ++ "&&"]
  | KNullopt => map p_type ps = ["std::nullopt_t"]
  | KInPlace => exists p r, ps = p :: r /\ p_type p = "std::in_place_t"
  | KTag => exists p r, ps = p :: r /\ p_type p = "DirectInitializationFromFunctionTag"
  | KValue => map p_type ps = ["U&&"]
  end.

(** The classes of the API: optional.h:1390-1391 (the base of tiny::optional and what the
    aliases of tiny/optional.h name) and 2195-2201. *)
Definition api_class (c : string) : Prop := c = "TinyOptionalImpl" \/ c = "optional".

(** Every constructor of the public classes is for one of these kinds; it is explicit if it
    takes std::in_place, it is not explicit if it takes anything else but a single value
    (explicit(!is_convertible) in std::optional, here two overloads: one explicit, one
    not).  The only conversion function is operator bool, and it is explicit: an optional
    never turns into a number. *)
Theorem C77_explicit :
  forall c n ps e,
    api_class c -> In (c, n, ps, e) conversions ->
    (n = "operator bool" /\ ps = [] /\ e = true) \/
    (n = c /\ exists k, takes c ps k /\
       match k with
       | KInPlace => e = true
       | KValue => In (c, n, ps, negb e) conversions
       | _ => e = false
       end).
Proof.
  intros c n ps e Hc H.
  assert (A : Forall (fun x => match x with (c, n, ps, e) =>
              api_class c -> (n = "operator bool" /\ ps = [] /\ e = true) \/
              (n = c /\ exists k, takes c ps k /\
               match k with
               | KInPlace => e = true
               | KValue => In (c, n, ps, negb e) conversions
               | _ => e = false
               end) end) conversions).
  { clear. unfold conversions at 2.
    repeat (apply Forall_cons;
      [ intros [Q | Q]; try discriminate Q; clear Q;
        first
          [ left; repeat split; reflexivity
          | right; split; [ reflexivity | ];
            first
              [ exists KNothing; split; reflexivity
              | exists KCopy; split; reflexivity
              | exists KMove; split; reflexivity
              | exists KNullopt; split; reflexivity
              | exists KInPlace; split; [ do 2 eexists; split; reflexivity | reflexivity ]
              | exists KTag; split; [ do 2 eexists; split; reflexivity | reflexivity ]
              | exists KValue; split; [ reflexivity | simpl; tauto ] ] ] | ]).
    apply Forall_nil. }
  rewrite Forall_forall in A. exact (A _ H Hc).
Qed.
Print Assumptions C77_explicit.

(** And nothing is missing: each kind has its constructor, in TinyOptionalImpl for all
    kinds (tiny::optional inherits these, C80), and the conversion to bool is there. *)
Theorem C77_explicit_complete :
  (forall k, exists ps e,
     In ("TinyOptionalImpl", "TinyOptionalImpl", ps, e) conversions /\
     takes "TinyOptionalImpl" ps k) /\
  (exists p r, In ("TinyOptionalImpl", "TinyOptionalImpl",
                   Param "std::in_place_t" "" false :: Param "std::initializer_list<U>" p false :: r,
                   true) conversions) /\
  In ("TinyOptionalImpl", "operator bool", [], true) conversions.
Proof.
  split; [ | split ].
  - intro k.
    assert (A : Exists (fun x => match x with (c, n, ps, e) =>
                  c = "TinyOptionalImpl" /\ n = "TinyOptionalImpl" /\
                  takes "TinyOptionalImpl" ps k end) conversions).
    { unfold conversions; destruct k;
        repeat first
          [ apply Exists_cons_hd; repeat split; try reflexivity;
            do 2 eexists; split; reflexivity
          | apply Exists_cons_hd; repeat split; reflexivity
          | apply Exists_cons_tl ]. }
    apply Exists_exists in A. destruct A as [[[[c n] ps] e] [I [-> [-> T]]]].
    exists ps, e. split; assumption.
  - do 2 eexists. unfold conversions.
    repeat first [ left; reflexivity | right ].
  - unfold conversions. repeat first [ left; reflexivity | right ].
Qed.
Print Assumptions C77_explicit_complete.

(** Both overloads for a single value are there. *)
Example C77_explicit_example :
  In ("TinyOptionalImpl", "TinyOptionalImpl", [Param "U&&" "v" false], true) conversions /\
  In ("TinyOptionalImpl", "TinyOptionalImpl", [Param "U&&" "v" false], false) conversions /\
  api_class "TinyOptionalImpl".
Proof.
  unfold conversions, api_class.
  split; [ | split ]; [ | | left; reflexivity ]; repeat first [ left; reflexivity | right ].
Qed.
