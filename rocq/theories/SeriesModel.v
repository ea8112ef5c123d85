(** Series keys and their rendering: stats.go 22-83, tags.go 98-171. *)
From Verif Require Import Base.

(** The bytes the writers care about. *)
Definition chComma : ascii := ",".
Definition chEq : ascii := "=".
Definition chSpace : ascii := " ".
Definition chBackslash : ascii := "\".

(** strings.IndexByte(s, c) == -1, as used in tags.go 137-138, 155-157. *)
Fixpoint has_byte (c : ascii) (s : bytes) : bool :=
  match s with
  | [] => false
  | a :: s' => bool_decide (a = c) || has_byte c s'
  end.

(** The escaping loop of tags.go 144-150 and 163-170: a backslash before each
    byte for which [sp] holds. *)
Fixpoint escape_loop (sp : ascii -> bool) (s : bytes) : bytes :=
  match s with
  | [] => []
  | a :: s' => (if sp a then [chBackslash; a] else [a]) ++ escape_loop sp s'
  end.

Definition meas_special (a : ascii) : bool :=
  bool_decide (a = chComma) || bool_decide (a = chSpace).
Definition tag_special (a : ascii) : bool :=
  bool_decide (a = chComma) || bool_decide (a = chEq) || bool_decide (a = chSpace).

(** writeMeasurement, tags.go 136-151.  The builder is the returned string. *)
Definition write_measurement (m : bytes) : bytes :=
  if negb (has_byte chComma m) && negb (has_byte chSpace m) then m
  else escape_loop meas_special m.

(** writeTag, tags.go 154-171. *)
Definition write_tag (t : bytes) : bytes :=
  if negb (has_byte chComma t) && negb (has_byte chEq t) && negb (has_byte chSpace t)
  then t else escape_loop tag_special t.

(** The less function of tags.go 121-123. *)
Definition kv_less (x y : bytes * bytes) : bool := bytes_ltb (fst x) (fst y).

(** The output loop of tags.go 125-132; [i] is the loop index. *)
Fixpoint write_kvs (i : nat) (kvs : list (bytes * bytes)) : bytes :=
  match kvs with
  | [] => []
  | (k, v) :: rest =>
      (if (0 <? i)%nat then [chComma] else []) ++
      write_tag k ++ [chEq] ++ write_tag v ++ write_kvs (S i) rest
  end.

(** writeTags, tags.go 111-133.  [range] is the sequence of pairs that
    "for key, value := range t.all" (118) yields: Go leaves its order open, so
    the theorems take any permutation of the map's associations. *)
Definition write_tags (range : list (bytes * bytes)) : bytes :=
  write_kvs 0 (isort kv_less range).

(** SeriesKey, stats.go 22-25.  A nil TagSet pointer and an empty one behave
    alike for rendering (Len 0), so Tags is just the map. *)
Record series_key := SeriesKey {
  sk_measurement : bytes;
  sk_tags : gmap bytes bytes
}.

(** SeriesKey.String, stats.go 46-54 (with TagSet.String, tags.go 98-108, whose
    cache is modelled in TagSetModel.v). [range] as above. *)
Definition series_string_range (m : bytes) (range : list (bytes * bytes)) : bytes :=
  write_measurement m ++
  match range with
  | [] => []
  | _ :: _ => [chComma] ++ write_tags range
  end.
Definition series_string (k : series_key) : bytes :=
  series_string_range (sk_measurement k) (map_to_list (sk_tags k)).

(** SeriesKey.WithField, stats.go 56-62. *)
Definition with_field_range (m : bytes) (range : list (bytes * bytes)) (field : bytes) : bytes :=
  series_string_range m range ++ [chSpace] ++ write_tag field.
Definition with_field (k : series_key) (field : bytes) : bytes :=
  series_string k ++ [chSpace] ++ write_tag field.

(** SeriesKey.WithTag / WithTags, stats.go 33-42: last value wins. *)
Definition with_tag (k : series_key) (key val : bytes) : series_key :=
  SeriesKey (sk_measurement k) (<[key := val]> (sk_tags k)).
Definition with_tags (k : series_key) (tags : list (bytes * bytes)) : series_key :=
  SeriesKey (sk_measurement k)
    (fold_left (fun m t => <[fst t := snd t]> m) tags (sk_tags k)).

(** A stat as passed to the callback of StatSource.Stats, stats.go 65-67.  The
    value type is a parameter: nothing in this area looks at it. *)
Record stat (V : Type) := Stat { st_key : series_key; st_field : bytes; st_val : V }.
Arguments Stat {V}.
Arguments st_key {V}.
Arguments st_field {V}.
Arguments st_val {V}.

(** Collect, stats.go 77-83: the source is the sequence of callback calls it
    makes. *)
Definition collect_map {V} (source : list (stat V)) : gmap bytes V :=
  fold_left (fun rv s => <[with_field (st_key s) (st_field s) := st_val s]> rv) source ∅.
