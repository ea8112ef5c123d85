(** Vocabulary for the scope properties. *)
From Verif Require Import Base SeriesModel Conc ScopeModel.

(** Thread [i] made call [c] and it returned [r]. *)
Definition returned (sched : list (action call)) (i : nat) (c : call) (r : result) : Prop :=
  threads (sc_exec sched) !! i = Some (Thr c (PDone r)).

(** The source table after a schedule. *)
Definition table (sched : list (action call)) : gmap bytes obj := sc_sources (shared (sc_exec sched)).

(** The arguments for which table names cannot clash: no comma anywhere, no '=' in tag
    keys, and only Funcs live under "func:". *)
Definition no_comma (s : bytes) : Prop := ~ In chComma s.
Definition clean (k : kind) (name : bytes) (tags : list (bytes * bytes)) : Prop :=
  no_comma name /\
  (forall key val, In (key, val) tags -> no_comma key /\ ~ In chEq key /\ no_comma val) /\
  (k <> KFunc -> forall rest, name <> B "func:" ++ rest).

(** [st'] is [st] with tag "scope" set to [scope_name] and nothing else changed. *)
Definition scope_tagged {V} (scope_name : bytes) (st st' : stat V) : Prop :=
  st_field st' = st_field st /\ st_val st' = st_val st /\
  sk_measurement (st_key st') = sk_measurement (st_key st) /\
  forall t, sk_tags (st_key st') !! t =
            if decide (t = B "scope") then Some scope_name else sk_tags (st_key st) !! t.

(** Any order a map iteration may choose. *)
Definition any_order {A} (ord : list A -> list A) : Prop := forall l, Permutation (ord l) l.

(** The number of times [x] satisfies [p] in a list. *)
Fixpoint occurrences {A} (p : A -> bool) (l : list A) : nat :=
  match l with [] => 0 | x :: l' => (if p x then 1 else 0) + occurrences p l' end.

(** A visited source is the object with this identity / the gauge with this name. *)
Definition is_source (id : nat) (v : obj + nat) : bool :=
  match v with inl (Src id' _ _) => Nat.eqb id id' | _ => false end.
Definition is_gauge_named (n : bytes) (v : obj + nat) : bool :=
  match v with inl (Gauge n' _) => bool_decide (n = n') | _ => false end.

(** The chained sources among the visited ones, in order. *)
Definition visited_chains (v : list (obj + nat)) : list nat :=
  omap (fun x => match x with inr c => Some c | inl _ => None end) v.

(** The value the last tag with key [t] in a list has. *)
Fixpoint last_tag (t : bytes) (tags : list (bytes * bytes)) : option bytes :=
  match tags with
  | [] => None
  | (k, v) :: rest =>
      match last_tag t rest with
      | Some w => Some w
      | None => if decide (k = t) then Some v else None
      end
  end.
