(** Shared vocabulary: byte strings, 64-bit wrap-around, outcomes, sorting. *)
From Coq Require Export Ascii String ZArith Lia.
From stdpp Require Export base list gmap.
From stdpp Require Import strings.
From Coq Require Import ZifyBool ZifyNat ZifyN.

(** Go strings are arbitrary byte sequences. *)
Definition bytes := list ascii.
Definition B : string -> bytes := list_ascii_of_string.
Arguments B s%string.

(** Go's built-in string order is byte-wise lexicographic, a proper prefix
    being smaller. *)
Fixpoint bytes_ltb (x y : bytes) : bool :=
  match x, y with
  | [], [] => false
  | [], _ :: _ => true
  | _ :: _, [] => false
  | a :: x', c :: y' =>
      if (N_of_ascii a <? N_of_ascii c)%N then true
      else if (N_of_ascii c <? N_of_ascii a)%N then false
      else bytes_ltb x' y'
  end.
Definition bytes_lt (x y : bytes) : Prop := bytes_ltb x y = true.

(** Byte equality test. *)
Definition beqb (x y : bytes) : bool := bool_decide (x = y).

(** Two's complement wrap-around of int64, and reduction modulo 2^64. *)
Definition wrap64 (z : Z) : Z := ((z + 2 ^ 63) mod 2 ^ 64 - 2 ^ 63)%Z.
Definition u64 (z : Z) : Z := (z mod 2 ^ 64)%Z.
Definition in64 (z : Z) : Prop := (- 2 ^ 63 <= z < 2 ^ 63)%Z.

(** The result of a Go call that may panic. *)
Inductive outcome (A : Type) : Type :=
| Ok (a : A)
| Panic (msg : bytes).
Arguments Ok {A} a.
Arguments Panic {A} msg.

(** sort.Slice / sort.Sort: some sort by the given "less"; insertion sort here.
    All uses in the theorems sort by an order for which the sorted
    result is unique, so the choice of algorithm does not matter. *)
Section sort.
  Context {A : Type} (less : A -> A -> bool).
  Fixpoint sinsert (x : A) (l : list A) : list A :=
    match l with
    | [] => [x]
    | y :: l' => if less x y then x :: y :: l' else y :: sinsert x l'
    end.
  Fixpoint isort (l : list A) : list A :=
    match l with
    | [] => []
    | x :: l' => sinsert x (isort l')
    end.
End sort.

(** Joining with a separator, as in the various "if i > 0 write sep" loops. *)
Fixpoint join (sep : bytes) (l : list bytes) : bytes :=
  match l with
  | [] => []
  | [x] => x
  | x :: l' => x ++ sep ++ join sep l'
  end.
