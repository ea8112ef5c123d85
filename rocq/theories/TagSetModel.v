(** TagSet objects with explicit sharing: tags.go 34-108.

    Maps are heap objects, so that handing one map to two owners would be
    visible.  A pointer to a TagSet is [option nat], [None] being nil. *)
From Verif Require Import Base SeriesModel.

(** TagSet, tags.go 34-37.  [ts_all = None] is a nil map (the zero TagSet). *)
Record tagset_obj := TagSetObj { ts_all : option nat; ts_str : bytes }.

(** The heap: all maps, all TagSet objects, and which maps the user created and
    may still write to. *)
Record heap := Heap {
  h_maps : list (gmap bytes bytes);
  h_sets : list tagset_obj;
  h_user : list nat
}.
Definition heap_init : heap := Heap [] [] [].

(** What "range m" sees of a possibly nil map. *)
Definition map_contents (h : heap) (r : option nat) : gmap bytes bytes :=
  match r with
  | None => ∅
  | Some i => default ∅ (h_maps h !! i)
  end.

(** t.all read through a possibly nil pointer (tags.go 41, 50, 58, 72, 86). *)
Definition ts_map (h : heap) (t : option nat) : option nat :=
  match t with
  | None => None
  | Some i => match h_sets h !! i with Some o => ts_all o | None => None end
  end.

(** TagSet.Get, tags.go 40-45: a missing key yields "". *)
Definition ts_get (h : heap) (t : option nat) (key : bytes) : bytes :=
  default [] (map_contents h (ts_map h t) !! key).

(** TagSet.All, tags.go 49-54: the map itself is handed out. *)
Definition ts_all_ref (h : heap) (t : option nat) : option nat := ts_map h t.

(** TagSet.Len, tags.go 57-62. *)
Definition ts_len (h : heap) (t : option nat) : nat := size (map_contents h (ts_map h t)).

(** Allocation of a map and of a TagSet object holding it: the
    "&TagSet{all: all}" of tags.go 80, 94. *)
Definition alloc_set (h : heap) (m : gmap bytes bytes) : heap * nat :=
  (Heap (h_maps h ++ [m]) (h_sets h ++ [TagSetObj (Some (length (h_maps h))) []]) (h_user h),
   length (h_sets h)).

(** TagSet.SetTags, tags.go 70-81: copy loop, then the tags in order. *)
Definition ts_set_tags (h : heap) (t : option nat) (tags : list (bytes * bytes)) : heap * nat :=
  let all := map_contents h (ts_map h t) in
  alloc_set h (fold_left (fun m kv => <[fst kv := snd kv]> m) tags all).

(** TagSet.SetAll, tags.go 84-95: copy loop, then every pair of the given map
    (keys are distinct, so its iteration order is irrelevant: the result is the
    left-biased union). *)
Definition ts_set_all (h : heap) (t : option nat) (kvs : gmap bytes bytes) : heap * nat :=
  let all := map_contents h (ts_map h t) in
  alloc_set h (kvs ∪ all).

(** TagSet.Set, tags.go 65-67.  The one-entry map literal is unreachable
    afterwards and not put on the heap. *)
Definition ts_set (h : heap) (t : option nat) (key value : bytes) : heap * nat :=
  ts_set_all h t {[ key := value ]}.

(** TagSet.String, tags.go 98-108, filling the cache.  Iteration order: see C02;
    the canonical one is used here. *)
Definition ts_string (h : heap) (t : option nat) : heap * bytes :=
  match t with
  | None => (h, [])
  | Some i =>
      match h_sets h !! i with
      | None => (h, [])
      | Some o =>
          if beqb (ts_str o) [] then
            let s := write_tags (map_to_list (map_contents h (ts_all o))) in
            (Heap (h_maps h) (<[i := TagSetObj (ts_all o) s]> (h_sets h)) (h_user h), s)
          else (h, ts_str o)
      end
  end.

(** What a program using the package may do.  [OMakeMap]/[OMapPut] are the user's
    own maps (passed to SetAll by reference); maps handed out by All are not to
    be written (tags.go 48) and there is no operation for that. *)
Inductive ts_op :=
| ONew
| OSet (t : option nat) (key value : bytes)
| OSetTags (t : option nat) (tags : list (bytes * bytes))
| OSetAll (t : option nat) (u : nat)
| OMakeMap
| OMapPut (u : nat) (key value : bytes)
| OString (t : option nat).

Definition user_ref (h : heap) (u : nat) : option nat := h_user h !! u.

Definition ts_step (h : heap) (o : ts_op) : heap :=
  match o with
  | ONew => Heap (h_maps h) (h_sets h ++ [TagSetObj None []]) (h_user h)
  | OSet t k v => fst (ts_set h t k v)
  | OSetTags t tags => fst (ts_set_tags h t tags)
  | OSetAll t u => fst (ts_set_all h t (map_contents h (user_ref h u)))
  | OMakeMap => Heap (h_maps h ++ [∅]) (h_sets h) (h_user h ++ [length (h_maps h)])
  | OMapPut u k v =>
      match user_ref h u with
      | None => h
      | Some r => Heap (alter (<[k := v]>) r (h_maps h)) (h_sets h) (h_user h)
      end
  | OString t => fst (ts_string h t)
  end.
Definition ts_run (ops : list ts_op) (h : heap) : heap := fold_left ts_step ops h.
