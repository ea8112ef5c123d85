(** StatSourceFromStruct: struct.go, and StructVal, val.go 162-201. *)
From Verif Require Import Base Strings Fval.

(** Go values as reflect sees them.  Values of kinds that convert to float64 (all integer
    and float kinds) carry the converted value; [VOther] are all remaining kinds (strings,
    complex numbers, interfaces, maps, slices, ...), which convert to neither float64 nor
    bool.  Pointers are followed, so cyclic data is not represented. *)
Inductive gval :=
| VNum (v : fval)
| VBool (b : bool)
| VPtr (target : option gval)
| VStruct (fields : list (bytes * bool * bytes * gval))
| VOther.

(** A field: its name, whether it is exported (so that CanInterface holds), Tag.Get("monkit")
    and its value. *)
Definition gfield : Type := bytes * bool * bytes * gval.
Definition fd_name (f : gfield) : bytes := fst (fst (fst f)).
Definition fd_exported (f : gfield) : bool := snd (fst (fst f)).
Definition fd_tag (f : gfield) : bytes := snd (fst f).
Definition fd_val (f : gfield) : gval := snd f.

(** deref, struct.go 74-79; [None]: val.Type() of the zero Value panics. *)
Fixpoint deref (v : gval) : option gval :=
  match v with
  | VPtr (Some v') => deref v'
  | VPtr None => None
  | _ => Some v
  end.

(** The callback calls made, and whether the call panicked after them. *)
Definition report : Type := list (bytes * fval) * bool.
Definition then_report (a b : report) : report := if snd a then a else (fst a ++ fst b, snd b).

(** struct.go 49-54 *)
Definition ignored (f : gfield) : bool := existsb (fun part => beqb part (B "ignore")) (split ","%char (fd_tag f)).
(** struct.go 58-60 *)
Definition under (name : bytes) (r : report) : report := (map (fun s => (name ++ B "." ++ fst s, snd s)) (fst r), snd r).

(** StatSourceFromStruct(key, v).Stats(cb), struct.go 33-71.  The key passed to cb is always
    the given one.  [v] itself is dereferenced when the source is made (34).  The recursive
    call for a field (57) is made on the field, whose dereference is what 45 computed. *)
Fixpoint struct_stats (v : gval) : report :=
  match v with
  | VPtr None => ([], true)
  | VPtr (Some v') => struct_stats v'
  | VStruct fields =>
      (fix go (fields : list (bytes * bool * bytes * gval)) : report :=
         match fields with
         | [] => ([], false)
         | f :: rest =>
             let '(name, exported, tag, x) := f in
             match deref x with
             | None => ([], true)
             | Some d =>
                 then_report
                   (if ignored (name, exported, tag, x) then ([], false)
                    else match d with
                         | VStruct _ => if exported then under name (struct_stats x) else ([], false)
                         | VNum y => ([(name, y)], false)
                         | VBool b => ([(name, FBool b)], false)
                         | _ => ([], false)
                         end)
                   (go rest)
             end
         end) fields
  | _ => ([], false)
  end.

(** StructVal, val.go 172-201: [recent] is nil or the value last observed. *)
Definition sv_observe (recent : option gval) (v : option gval) : option gval := v.
Definition sv_stats (recent : option gval) : report :=
  match recent with Some v => struct_stats v | None => ([], false) end.
Definition sv_run (observed : list (option gval)) : option gval := fold_left sv_observe observed None.
