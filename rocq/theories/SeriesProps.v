(** Properties C01, C02, C33 (theorems only; proofs are in SeriesProofs.v). *)
From Verif Require Import Base SeriesModel SeriesSpec SeriesProofs.

(** C01: with no component ending in a backslash, rendered names never
    collide, whatever order Go's map iteration ([r1], [r2]) uses. *)
Theorem C01_with_field_injective :
  forall m1 t1 r1 f1 m2 t2 r2 f2,
    no_trailing_backslash m1 t1 -> no_trailing_backslash m2 t2 ->
    r1 ≡ₚ map_to_list t1 -> r2 ≡ₚ map_to_list t2 ->
    with_field_range m1 r1 f1 = with_field_range m2 r2 f2 ->
    m1 = m2 /\ t1 = t2 /\ f1 = f2.
Proof. exact with_field_range_inj. Qed.
Print Assumptions C01_with_field_injective.

(** A tricky pair that meets the hypotheses: specials and inner backslashes. *)
Example C01_nonvacuous :
  no_trailing_backslash (B "a\,b c") {[ B "k=,\=" := B ",v " ]}.
Proof.
  split; [discriminate|]. intros k v H. apply lookup_singleton_Some in H as [<- <-].
  split; discriminate.
Qed.

(** C01, the proviso is needed: two different series, one name. *)
Theorem C01_unrestricted_refuted :
  exists m1 t1 m2 t2 f,
    SeriesKey m1 t1 <> SeriesKey m2 t2 /\
    with_field (SeriesKey m1 t1) f = with_field (SeriesKey m2 t2) f.
Proof.
  exists (B "a\"), {[ B "b" := B "c" ]}, (B "a,b=c"), ∅, (B "f").
  split; [discriminate | vm_compute; reflexivity].
Qed.
Print Assumptions C01_unrestricted_refuted.

(** C02: the text lists exactly the tags, in strictly increasing key order,
    whatever order the map is iterated in ... *)
Theorem C02_tags_sorted_and_complete :
  forall tags range, range ≡ₚ map_to_list tags -> shows_tags tags (write_tags range).
Proof. exact write_tags_shows. Qed.
Print Assumptions C02_tags_sorted_and_complete.

(** ... and that determines it uniquely. *)
Theorem C02_tags_text_unique :
  forall tags text1 text2, shows_tags tags text1 -> shows_tags tags text2 -> text1 = text2.
Proof. exact shows_tags_unique. Qed.
Print Assumptions C02_tags_text_unique.

Theorem C02_series_string_canonical :
  forall m tags range,
    range ≡ₚ map_to_list tags -> series_string_range m range = series_string (SeriesKey m tags).
Proof. exact series_string_range_perm. Qed.
Print Assumptions C02_series_string_canonical.

Example C02_nonvacuous :
  series_string_range (B "m") [(B "b", B "2"); (B "a", B "1,")] = B "m,a=1\,,b=2".
Proof. vm_compute. reflexivity. Qed.

(** C33: Collect's result has exactly the rendered names emitted, each with the
    last value emitted under it. *)
Theorem C33_collect_last_value :
  forall (V : Type) (src : list (stat V)) name,
    collect_map src !! name =
    last_match (fun s => if decide (with_field (st_key s) (st_field s) = name)
                         then Some (st_val s) else None) src.
Proof. exact @collect_map_lookup. Qed.
Print Assumptions C33_collect_last_value.

Example C33_nonvacuous :
  collect_map [Stat (SeriesKey (B "m") ∅) (B "f") 1; Stat (SeriesKey (B "m") ∅) (B "g") 5;
               Stat (SeriesKey (B "m") ∅) (B "f") 2]
    !! B "m f" = Some 2.
Proof. vm_compute. reflexivity. Qed.
