(** * A check that locks are taken in an order

    Not part of any statement: a table gives each lock a rank, and the check goes through the
    functions with the locks held. *)
From Verif Require Import RaceModel RaceCheck.

Section check.
  Variable rank : string -> string -> option nat.
  (** Locks that may be held while a function of the user runs. *)
  Variable quiet : string -> string -> bool.

  (** The classes of the variables; the locks held, each with the variable through which it was
      taken and its class. *)
  Record octx := { ocls : list (string * string); ohld : list (mode * string * string * string) }.

  Definition orebind (k : octx) (x c : string) : option octx :=
    if existsb (fun h => String.eqb h.1.1.2 x) (ohld k) then None
    else Some {| ocls := (x, c) :: ocls k; ohld := ohld k |}.

  (** Is lock l of class c above all that are held? *)
  Definition above (k : octx) (c l : string) : bool :=
    match rank c l with
    | Some r => forallb (fun h => match rank h.2 h.1.2 with Some r' => Nat.ltb r' r | None => false end) (ohld k)
    | None => false
    end.

  Definition otake (k : octx) (m : mode) (v l : string) : option octx :=
    match lookup_cls (ocls k) v with
    | Some c => if above k c l then Some {| ocls := ocls k; ohld := (m, v, l, c) :: ohld k |} else None
    | None => None
    end.

  Fixpoint oremove (m : mode) (v l : string) (hs : list (mode * string * string * string)) :=
    match hs with
    | [] => None
    | h :: hs' => if bool_decide (h.1 = (m, v, l)) then Some hs' else cons h <$> oremove m v l hs'
    end.

  Definition odrop (k : octx) (m : mode) (v l : string) : option octx :=
    match oremove m v l (ohld k) with
    | Some hs => Some {| ocls := ocls k; ohld := hs |}
    | None => None
    end.

  Definition ocommon (k1 k2 : octx) : option octx :=
    if bool_decide (ohld k1 = ohld k2) then
      Some {| ocls := List.filter (fun p => bool_decide (lookup_cls (ocls k1) p.1 = Some p.2) &&
                bool_decide (lookup_cls (ocls k2) p.1 = Some p.2)) (ocls k1);
              ohld := ohld k1 |}
    else None.

  Definition oless (k1 k2 : octx) : Prop :=
    (forall x c, lookup_cls (ocls k1) x = Some c -> lookup_cls (ocls k2) x = Some c) /\ ohld k1 = ohld k2.

  Definition olessb (k1 k2 : octx) : bool :=
    forallb (fun p => bool_decide (lookup_cls (ocls k1) p.1 = lookup_cls (ocls k2) p.1)) (ocls k1) &&
    bool_decide (ohld k1 = ohld k2).

  Section block.
    Variable one : octx -> cmd -> option octx.
    Fixpoint oblock (k : octx) (b : list cmd) {struct b} : option octx :=
      match b with
      | [] => Some k
      | c :: b' => match one k c with Some k1 => oblock k1 b' | None => None end
      end.
  End block.

  Fixpoint ocheck1 (k : octx) (c : cmd) {struct c} : option octx :=
    let block := oblock ocheck1 in
    match c with
    | New x c _ => orebind k x c
    | Rd _ _ | Wr _ _ _ | At _ _ _ _ => Some k
    | Get _ _ x c | AtGet _ _ x c => orebind k x c
    | Lk m v l => otake k m v l
    | Un m v l => odrop k m v l
    | Once v n b =>
        match otake k MO v n with
        | Some k0 =>
            match block k0 b with
            | Some k1 =>
                match odrop k1 MO v n with
                | Some k2 => if olessb k k2 then Some k else None
                | None => None
                end
            | None => None
            end
        | None => None
        end
    | If b1 b2 => match block k b1, block k b2 with Some k1, Some k2 => ocommon k1 k2 | _, _ => None end
    | Loop b => match block k b with Some k1 => if olessb k k1 then Some k else None | None => None end
    | Go b =>
        match block {| ocls := ocls k; ohld := [] |} b with
        | Some k1 => if bool_decide (ohld k1 = []) then Some k else None
        | None => None
        end
    | User => if forallb (fun h => quiet h.2 h.1.2) (ohld k) then Some k else None
    end.

  Definition ocheck_method (L : library) (m : method) : bool :=
    match oblock ocheck1 {| ocls := params m ++ globals L; ohld := [] |} (body m) with
    | Some k => bool_decide (ohld k = [])
    | None => false
    end.

  Definition ocheck_library (L : library) : bool := forallb (ocheck_method L) (methods L).
End check.
