(** * Cells: object representations

    The C++ memory that one optional (or one user variable) occupies is modelled
    as a list of cells.  This is the usual "symbolic bytes" abstraction of a
    byte-addressed memory; it is our own modelling choice and corresponds to no
    line of the library.  It underlies [Machine.v].

    Simplification: a cell is either indeterminate (uninitialised, or the object
    that was there has been destroyed), a concrete byte, or an opaque atom that
    stands for one unit of a value whose bytes we do not want to spell out (for
    instance a [std::string] member). *)

From Coq Require Import List NArith ZArith Bool.
Import ListNotations.

(** A memory cell. Models one byte of the storage that
    [SeparateFlagStorage]/[InplaceStorage] reserve (optional.h:516-544). *)
Inductive cell : Type :=
| Indet              (* indeterminate value: reading it is undefined behaviour *)
| Byte (b : N)       (* a byte, intended range 0..255 *)
| Atom (z : Z).      (* opaque, determinate, not a byte *)

(** Object representation of a value: its cells in address order. *)
Definition rep : Type := list cell.

(** The [len] cells starting at offset [off]: a subobject.  Models taking a
    reference to a member or to the whole stored object
    (optional.h:578-586, 599-607, 637-645). *)
Definition sub (off len : nat) (c : rep) : rep := firstn len (skipn off c).

(** Overwrite the cells at offset [off] by [x], leaving all others alone.  Models
    a write to that subobject. *)
Definition put (off : nat) (x c : rep) : rep :=
  firstn off c ++ x ++ skipn (off + length x) c.

(** [n] indeterminate cells: freshly allocated or destroyed memory. *)
Definition indets (n : nat) : rep := repeat Indet n.

(** Decidable equality on cells, as a boolean. *)
Definition cell_eqb (a b : cell) : bool :=
  match a, b with
  | Indet, Indet => true
  | Byte x, Byte y => N.eqb x y
  | Atom x, Atom y => Z.eqb x y
  | _, _ => false
  end.
