(** present/trace.go: the layout of finished spans as an SVG (lines 141-371). *)
From Verif Require Import Base.
Open Scope Z_scope.

(** What the layout reads from a finished span; times in nanoseconds. *)
Record fspan := FSpan { sp_id : Z; sp_parent : option Z; sp_start : Z; sp_finish : Z }.

(** trace.go 141-149: spanInformation. Span and Children are written but do not
    influence the layout; Row is the log of writes returned by [compute_row]. *)
Record info := Info { in_parent : Z; in_largest : Z; in_layout : bool; in_rows : list (list Z) }.
Notation tree := (gmap Z info).

Section layout.
  Context (zero_time : Z).             (* time.Time{} *)
  Definition new_info : info := Info 0 zero_time false [].
  Definition later (i : info) (t : Z) : info :=
    Info (in_parent i) (if in_largest i <? t then t else in_largest i) (in_layout i) (in_rows i).

  (** trace.go 151-178: computeSpanTree. *)
  Definition add_span (T : tree) (sp : fspan) : tree :=
    let id := sp_id sp in
    let i := later (default new_info (T !! id)) (sp_finish sp) in
    match sp_parent sp with
    | None => <[id := i]> T
    | Some pid =>
        let T1 := <[id := Info pid (in_largest i) (in_layout i) (in_rows i)]> T in
        <[pid := later (default new_info (T1 !! pid)) (sp_finish sp)]> T1
    end.
  Definition span_tree (spans : list fspan) : tree := fold_left add_span spans ∅.

  (** trace.go 217-226: the first row whose last child ended before [start]. *)
  Fixpoint place (T : tree) (start id : Z) (rows : list (list Z)) : list (list Z) :=
    match rows with
    | [] => [[id]]
    | r :: rows' =>
        let free := match last r with
                    | None => true
                    | Some c => match T !! c with Some i => in_largest i <? start | None => false end
                    end in
        if free then (r ++ [id]) :: rows' else r :: place T start id rows'
    end.
  (** trace.go 196-227: includeSpanInLayoutInformation. Line 211 is never
      reached: line 205 returned if the parent's entry is missing. *)
  Definition include (T : tree) (sp : fspan) : tree :=
    match T !! sp_id sp with
    | None => T                          (* nil dereference; every span has an entry *)
    | Some si =>
        if in_layout si then T
        else
          let T1 := <[sp_id sp := Info (in_parent si) (in_largest si) true (in_rows si)]> T in
          match sp_parent sp with
          | None => T1
          | Some pid =>
              match T1 !! pid with
              | None => T1
              | Some psi =>
                  <[pid := Info (in_parent psi) (in_largest psi) (in_layout psi)
                                (place T1 (sp_start sp) (sp_id sp) (in_rows psi))]> T1
              end
          end
    end.
  Definition layout_tree (spans : list fspan) : tree := fold_left include spans (span_tree spans).

  (** trace.go 229-243: computeRow, returning the height and the rows assigned.
      [fuel] bounds the depth of the recursion; [None]: not enough (or a nil entry). *)
  Section rows.
    Context (rec : Z -> nat -> option (nat * list (Z * nat))).
    Fixpoint compute_group (children : list Z) (used : nat) : option (nat * list (Z * nat)) :=
      match children with
      | [] => Some (0%nat, [])
      | c :: children' =>
          match rec c used, compute_group children' used with
          | Some (h, w), Some (h', w') => Some (Nat.max h h', w ++ w')
          | _, _ => None
          end
      end.
    Fixpoint compute_groups (groups : list (list Z)) (used : nat) : option (nat * list (Z * nat)) :=
      match groups with
      | [] => Some (used, [])
      | g :: groups' =>
          match compute_group g used with
          | None => None
          | Some (h, w) =>
              match compute_groups groups' (used + h) with
              | Some (used', w') => Some (used', w ++ w')
              | None => None
              end
          end
      end.
  End rows.
  Fixpoint compute_row (fuel : nat) (T : tree) (id : Z) (start : nat) : option (nat * list (Z * nat)) :=
    match fuel with
    | O => None
    | S fuel' =>
        match T !! id with
        | None => None
        | Some i =>
            match compute_groups (compute_row fuel' T) (in_rows i) (start + 1) with
            | Some (used, w) => Some ((used - start)%nat, (id, start) :: w)
            | None => None
            end
        end
    end.

  (** trace.go 186-193: every entry with Parent 0 starts a tree; [order] is the
      order in which the map is ranged over. *)
  Fixpoint compute_roots (fuel : nat) (T : tree) (order : list Z) (used : nat) : option (list (Z * nat) * nat) :=
    match order with
    | [] => Some ([], used)
    | id :: order' =>
        match T !! id with
        | None => None
        | Some i =>
            if in_parent i =? 0 then
              match compute_row fuel T id used with
              | Some (h, w) =>
                  match compute_roots fuel T order' (used + h) with
                  | Some (w', used') => Some (w ++ w', used')
                  | None => None
                  end
              | None => None
              end
            else compute_roots fuel T order' used
        end
    end.
  (** trace.go 180-194: computeLayoutInformation: the rows assigned, in order
      (a later one to the same span wins), and the number of rows. *)
  Definition layout (fuel : nat) (order : list Z) (spans : list fspan) : option (list (Z * nat) * nat) :=
    match compute_roots fuel (layout_tree spans) order 1 with
    | Some (w, used) => Some (w, (used + 1)%nat)
    | None => None
    end.
End layout.
(** lis[id].Row: the last row assigned, 0 if none. *)
Definition row_of (w : list (Z * nat)) (id : Z) : nat :=
  fold_left (fun r e => if fst e =? id then snd e else r) w 0%nat.

(** trace.go 30-33, 326-328, 270: the rectangle's vertical extent, and the height. *)
Definition bar_height : Z := 15.
Definition bar_sep : Z := 1.
Definition bar_top (row : nat) : Z := Z.of_nat row * (bar_height + bar_sep).
Definition graph_height (rows : nat) : Z := (bar_height + bar_sep) * Z.of_nat rows + 20.

(** trace.go 248-261: minStart and maxEnd. The zero time.Time counts as unset. *)
Definition min_start (zero_time : Z) (spans : list fspan) : Z :=
  fold_left (fun m s => if (m =? zero_time) || (sp_start s <? m) then sp_start s else m) spans zero_time.
Definition max_end (zero_time : Z) (spans : list fspan) : Z :=
  fold_left (fun m s => if (m =? zero_time) || (m <? sp_finish s) then sp_finish s else m) spans zero_time.
(** trace.go 272-275: timeToX, in int64 arithmetic; [None]: division by zero panics. *)
Definition graph_width : Z := 1200.
Definition time_to_x (mn mx t : Z) : option Z :=
  let d := wrap64 (mx - mn) in
  if d =? 0 then None else Some (wrap64 (Z.quot (wrap64 (wrap64 (t - mn) * graph_width)) d)).
(** trace.go 325-327: left edge and width of a span's rectangle. *)
Definition bar_x (mn mx : Z) (s : fspan) : option (Z * Z) :=
  match time_to_x mn mx (sp_start s), time_to_x mn mx (sp_finish s) with
  | Some l, Some r => Some (l, if 1 <? wrap64 (r - l) then wrap64 (r - l) else 1)
  | _, _ => None
  end.
