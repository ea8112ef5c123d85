(** Random generators (rng.go) and span/trace ids (id.go).  uint64 values are [N]
    below 2^64; the wrap of <<, + and * is explicit. *)
From Verif Require Import Base.
Local Open Scope N_scope.

Definition two64 : N := 2 ^ 64.
Definition shl64 (x k : N) : N := (N.shiftl x k) mod two64.     (* x << k *)
Definition shr64 (x k : N) : N := N.shiftr x k.                 (* x >> k *)
Definition mul64 (x y : N) : N := (x * y) mod two64.
Definition add64 (x y : N) : N := (x + y) mod two64.

(** lcg.Uint64, rng.go 18-31: new state and result *)
Definition lcg_a : N := 6364136223846793005.
Definition lcg_c : N := 1442695040888963407.
Definition lcg_h : N := 0xffffffff00000000.
Definition lcg_step (l : N) : N := add64 (mul64 lcg_a l) lcg_c.
Definition lcg_uint64 (l : N) : N * N :=
  let l1 := lcg_step l in
  let ret := N.lor 0 (shr64 l1 32) in
  let l2 := lcg_step l1 in
  (l2, N.lor ret (N.land l2 lcg_h)).

(** Int63 of all generators: int64(x >> 1), rng.go 34-36, 69-71, 106-108, 169-171 *)
Definition int63 (x : N) : N := shr64 x 1.

(** xorshift64.Uint64, rng.go 58-66: the new state is the result *)
Definition xs64_next (s : N) : N :=
  let x := s in
  let x := N.lxor x (shr64 x 12) in
  let x := N.lxor x (shl64 x 25) in
  let x := N.lxor x (shr64 x 27) in
  mul64 x 2685821657736338717.

(** xorshift128.Uint64, rng.go 174-181: new state and result *)
Definition xs128_next (s : N * N) : (N * N) * N :=
  let x := fst s in
  let y := snd s in
  let x := N.lxor x (shl64 x 23) in
  let s1 := N.lxor (N.lxor (N.lxor x y) (shr64 x 17)) (shr64 y 26) in
  ((y, s1), add64 s1 y).

(** xorshift128.Seed, rng.go 161-166 (the two calls run left to right) *)
Definition xs128_seed (seed : N) : N * N :=
  let a := xs64_next seed in
  let b := xs64_next a in (a, b).

(** xorshift1024, rng.go 78-81 and Uint64 111-122.  [x_s] has 16 elements. *)
Record xs1024 := XS1024 { x_s : list N; x_p : N }.
Definition xs1024_next (st : xs1024) : xs1024 * N :=
  let p := N.land (x_p st) 15 in
  let s0 := nth (N.to_nat p) (x_s st) 0 in
  let p := N.land (p + 1) 15 in
  let s1 := nth (N.to_nat p) (x_s st) 0 in
  let s1 := N.lxor s1 (shl64 s1 31) in
  let v := N.lxor (N.lxor (N.lxor s1 s0) (shr64 s1 1)) (shr64 s0 30) in
  (XS1024 (<[N.to_nat p := v]> (x_s st)) p, mul64 v 1181783497276652981).

(** xorshift1024.Seed, rng.go 92-103 *)
Fixpoint xs64_list (n : nat) (s : N) : list N :=
  match n with
  | O => []
  | S n' => let a := xs64_next s in a :: xs64_list n' a
  end.
Definition xs1024_seed (seed : N) : xs1024 := XS1024 (xs64_list 16 seed) 0.

(** id.go 31-36: the start value and increment from 8 random bytes [b] (both from the
    same bytes, as in the code), or from two Int63 values, 37-40. *)
Definition id_init (b : N) : N * N := (shr64 b 1, N.lor (shr64 b 1) 3).
Definition id_init_fallback (r1 r2 : N) : N * N := (r1, N.lor r2 3).

(** NewId, id.go 45-48, as a step of the shared counter (atomic.AddUint64 is one
    atomic step, so concurrent calls are totally ordered by it). *)
Definition new_id (inc counter : N) : N * N :=
  let id := add64 counter inc in (id, shr64 id 1).

(** The id returned by the k-th call (k = 0, 1, ...). *)
Fixpoint counter_after (inc c : N) (k : nat) : N :=
  match k with
  | O => c
  | S k' => fst (new_id inc (counter_after inc c k'))
  end.
Definition nth_id (inc c : N) (k : nat) : N := snd (new_id inc (counter_after inc c k)).
