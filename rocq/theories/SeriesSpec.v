(** Specification vocabulary for series rendering, independent of the model's
    helpers. *)
From Verif Require Import Base.
From Coq Require Import Sorted.

(** A byte string that ends in a backslash. *)
Definition ends_in_backslash (s : bytes) : Prop := last s = Some "\"%char.

(** No measurement, tag key or tag value ends in a backslash. *)
Definition no_trailing_backslash (m : bytes) (tags : gmap bytes bytes) : Prop :=
  ~ ends_in_backslash m /\
  forall k v, tags !! k = Some v -> ~ ends_in_backslash k /\ ~ ends_in_backslash v.

(** The textual form promised by the comments: every comma, equals sign and
    space in a tag component is preceded by a backslash. *)
Fixpoint esc (special : list ascii) (s : bytes) : bytes :=
  match s with
  | [] => []
  | a :: s' => if decide (a ∈ special) then "\"%char :: a :: esc special s' else a :: esc special s'
  end.
Definition esc_tag := esc [","; "="; " "]%char.
Definition esc_measurement := esc [","; " "]%char.

(** [k=v] *)
Definition show_kv (kv : bytes * bytes) : bytes := esc_tag (fst kv) ++ B "=" ++ esc_tag (snd kv).

(** [text] lists exactly the associations of [tags], in strictly increasing key
    order, comma separated. *)
Definition shows_tags (tags : gmap bytes bytes) (text : bytes) : Prop :=
  exists kvs, kvs ≡ₚ map_to_list tags /\
              StronglySorted (fun x y => bytes_lt (fst x) (fst y)) kvs /\
              text = join (B ",") (map show_kv kvs).

(** Last value of the last stat in a stream satisfying a predicate. *)
Fixpoint last_match {A B} (f : A -> option B) (l : list A) : option B :=
  match l with
  | [] => None
  | a :: l' => match last_match f l' with Some r => Some r | None => f a end
  end.
