(** * A check that a library keeps to a locking discipline

    Not part of any statement: a table says, for each field, what keeps its accesses apart,
    and the check goes through the functions with what is known at each place.  That a
    library which passes has no data races is proved in RaceProofs.v. *)
From Verif Require Import RaceModel.

(** What protects a field: it is never written after allocation; all accesses are atomic;
    a lock of the same object; a lock of the object that an immutable field points to; a
    Once; only the goroutine that allocated the object uses it. *)
Inductive kind := KImm | KAtomic | KLock (l : string) | KVia (g l : string) | KOnce (n : string) | KMine.

Section check.
  Variable disc : string -> string -> option kind.

  (** What is known: the classes of the variables, which variable is which immutable field of
      which other one, the locks held, the Onces that have been passed, and the objects that
      the goroutine made itself. *)
  Record ctx := {
    cls : list (string * string);
    ali : list (string * string * string);
    hld : list (mode * string * string);
    psd : list (string * string);
    own : list string;
  }.

  Fixpoint lookup_cls (g : list (string * string)) (x : string) : option string :=
    match g with
    | [] => None
    | (y, c) :: g' => if String.eqb x y then Some c else lookup_cls g' x
    end.

  Definition kind_of (k : ctx) (v f : string) : option kind :=
    c ← lookup_cls (cls k) v; disc c f.

  Definition holds (k : ctx) (m : mode) (v l : string) : bool :=
    bool_decide ((m, v, l) ∈ hld k).

  Definition may_read (k : ctx) (v f : string) : bool :=
    match kind_of k v f with
    | Some KImm => true
    | Some (KLock l) => holds k MW v l || holds k MR v l
    | Some (KVia g l) =>
        existsb (fun a => match a with (v1, g1, x) =>
          String.eqb v1 v && String.eqb g1 g && holds k MW x l end) (ali k)
    | Some (KOnce n) => holds k MO v n || bool_decide ((v, n) ∈ psd k)
    | Some KMine => bool_decide (v ∈ own k)
    | _ => false
    end.

  Definition may_write (k : ctx) (v f : string) : bool :=
    match kind_of k v f with
    | Some (KLock l) => holds k MW v l
    | Some (KVia g l) =>
        existsb (fun a => match a with (v1, g1, x) =>
          String.eqb v1 v && String.eqb g1 g && holds k MW x l end) (ali k)
    | Some (KOnce n) => holds k MO v n
    | Some KMine => bool_decide (v ∈ own k)
    | _ => false
    end.

  Definition may_atomic (k : ctx) (v f : string) : bool :=
    match kind_of k v f with Some KAtomic => true | _ => false end.

  Definition known_var (k : ctx) (y : string) : bool :=
    match lookup_cls (cls k) y with Some _ => true | None => false end.

  (** x gets a new value: no lock may be held on it by that name. *)
  Definition rebind (k : ctx) (x c : string) : option ctx :=
    if existsb (fun h => match h with (_, v, _) => String.eqb v x end) (hld k) then None
    else Some {| cls := (x, c) :: cls k;
                 ali := List.filter (fun a => match a with (v, _, y) => negb (String.eqb v x) && negb (String.eqb y x) end) (ali k);
                 hld := hld k;
                 psd := List.filter (fun p => negb (String.eqb p.1 x)) (psd k);
                 own := List.filter (fun v => negb (String.eqb v x)) (own k) |}.

  Definition add_alias (k : ctx) (v f x : string) : ctx :=
    {| cls := cls k; ali := (v, f, x) :: ali k; hld := hld k; psd := psd k; own := own k |}.
  Definition add_own (k : ctx) (x : string) : ctx :=
    {| cls := cls k; ali := ali k; hld := hld k; psd := psd k; own := x :: own k |}.
  Definition add_held (k : ctx) (m : mode) (v l : string) : ctx :=
    {| cls := cls k; ali := ali k; hld := (m, v, l) :: hld k; psd := psd k; own := own k |}.
  Definition add_passed (k : ctx) (v n : string) : ctx :=
    {| cls := cls k; ali := ali k; hld := hld k; psd := (v, n) :: psd k; own := own k |}.

  Fixpoint remove1 (x : mode * string * string) (l : list (mode * string * string)) :=
    match l with
    | [] => None
    | y :: l' => if bool_decide (y = x) then Some l' else cons y <$> remove1 x l'
    end.

  Definition drop_held (k : ctx) (m : mode) (v l : string) : option ctx :=
    h ← remove1 (m, v, l) (hld k);
    Some {| cls := cls k; ali := ali k; hld := h; psd := psd k; own := own k |}.

  (** What both know. *)
  Definition common (k1 k2 : ctx) : option ctx :=
    if bool_decide (hld k1 = hld k2) then
      Some {| cls := List.filter (fun p => bool_decide (lookup_cls (cls k1) p.1 = Some p.2) && bool_decide (lookup_cls (cls k2) p.1 = Some p.2)) (cls k1);
              ali := List.filter (fun a => bool_decide (a ∈ ali k2)) (ali k1);
              hld := hld k1;
              psd := List.filter (fun a => bool_decide (a ∈ psd k2)) (psd k1);
              own := List.filter (fun a => bool_decide (a ∈ own k2)) (own k1) |}
    else None.

  (** k1 knows no more than k2. *)
  Definition less (k1 k2 : ctx) : Prop :=
    (forall x c, lookup_cls (cls k1) x = Some c -> lookup_cls (cls k2) x = Some c) /\
    ali k1 ⊆ ali k2 /\ hld k1 = hld k2 /\ psd k1 ⊆ psd k2 /\ own k1 ⊆ own k2.

  Definition lessb (k1 k2 : ctx) : bool :=
    forallb (fun p => bool_decide (lookup_cls (cls k1) p.1 = lookup_cls (cls k2) p.1)) (cls k1) &&
    forallb (fun a => bool_decide (a ∈ ali k2)) (ali k1) &&
    bool_decide (hld k1 = hld k2) &&
    forallb (fun a => bool_decide (a ∈ psd k2)) (psd k1) &&
    forallb (fun a => bool_decide (a ∈ own k2)) (own k1).

  Definition bind_field (k : ctx) (v f x c : string) : option ctx :=
    k1 ← rebind k x c;
    Some (match kind_of k v f with
          | Some KImm => if String.eqb v x then k1 else add_alias k1 v f x
          | _ => k1
          end).

  Definition test (b : bool) (k : ctx) : option ctx := if b then Some k else None.

  (** One statement after the other. *)
  Section block.
    Variable one : ctx -> cmd -> option ctx.
    Fixpoint check_block (k : ctx) (b : list cmd) {struct b} : option ctx :=
      match b with
      | [] => Some k
      | c :: b' => match one k c with Some k1 => check_block k1 b' | None => None end
      end.
  End block.

  Fixpoint check1 (k : ctx) (c : cmd) {struct c} : option ctx :=
    let block := check_block check1 in
    match c with
    | New x c fs =>
        if forallb (fun fy => known_var k fy.2) fs && bool_decide (NoDup fs.*1)
        then k1 ← rebind k x c; Some (add_own k1 x) else None
    | Rd v f => test (may_read k v f) k
    | Wr v f ys => test (may_write k v f && forallb (known_var k) ys) k
    | Get v f x c => if may_read k v f then bind_field k v f x c else None
    | At a v f ys => test (may_atomic k v f && forallb (known_var k) ys) k
    | AtGet v f x c => if may_atomic k v f then rebind k x c else None
    | Lk m v l => test (known_var k v) (add_held k m v l)
    | Un m v l =>
        k1 ← drop_held k m v l;
        Some (match m with MO => add_passed k1 v l | _ => k1 end)
    | Once v n b =>
        if known_var k v then
          match block (add_held k MO v n) b with
          | Some k1 =>
              match drop_held k1 MO v n with
              | Some k2 => if lessb k k2 then Some (add_passed k v n) else None
              | None => None
              end
          | None => None
          end
        else None
    | If b1 b2 =>
        match block k b1, block k b2 with Some k1, Some k2 => common k1 k2 | _, _ => None end
    | Loop b =>
        match block k b with
        | Some k1 =>
            if lessb k k1 then Some k else
            match common k k1 with
            | Some k0 => match block k0 b with Some k2 => test (lessb k0 k2) k0 | None => None end
            | None => None
            end
        | None => None
        end
    | Go b =>
        match block {| cls := cls k; ali := ali k; hld := []; psd := []; own := [] |} b with
        | Some k1 => test (bool_decide (hld k1 = [])) k
        | None => None
        end
    | User => Some k
    end.

  Definition check : ctx -> list cmd -> option ctx := check_block check1.

  Definition check_method (L : library) (m : method) : bool :=
    match check {| cls := params m ++ globals L; ali := []; hld := []; psd := []; own := [] |} (body m) with
    | Some k => bool_decide (hld k = [])
    | None => false
    end.

  (** Locks that guard fields are named apart from Onces by their modes: a field guarded by
      a Once is never guarded by a lock, so nothing more is needed; but the field that leads
      to a lock must not change. *)
  Definition via_ok (c f : string) : Prop :=
    match disc c f with Some (KVia g l) => disc c g = Some KImm | _ => True end.

  Definition check_library (L : library) : bool := forallb (check_method L) (methods L).
End check.
