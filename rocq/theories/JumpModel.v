(** xorshift1024.Jump, rng.go 124-149. *)
From Verif Require Import Base RngModel.
Local Open Scope N_scope.

(** xorshift1024jump, rng.go 142-149 *)
Definition jump_words : list N :=
  [0x84242f96eca9c41d; 0xa3c65b8776f96855; 0x5b34a39f070b5837;
   0x4489affce4f31a1e; 0x2ffeeb0a48316f40; 0xdc2d9891fe68c022;
   0x3659132bb12fea70; 0xaac17d8efa43cab8; 0xc4cb815590989b13;
   0x5ee975283d71c93b; 0x691548c86c1bd540; 0x7910c41d10a1e6a5;
   0x0b5fc64563b3e2a8; 0x047f7684e9fc949d; 0xb99181f2d8f685ca;
   0x284600e3f30e38c3].

(** The words s.s[(j+s.p)&15] for j = 0..15, read in lines 130-132. *)
Definition x_word (st : xs1024) (j : nat) : N :=
  nth (N.to_nat (N.land (N.of_nat j + x_p st) 15)) (x_s st) 0.
Definition x_view (st : xs1024) : list N := map (x_word st) (seq 0 16).

(** Lines 129-134: one round of the inner loop, with the test of line 129 given as [b]. *)
Definition jump_round (acc : list N * xs1024) (b : bool) : list N * xs1024 :=
  ((if b then zip_with N.lxor (fst acc) (x_view (snd acc)) else fst acc), fst (xs1024_next (snd acc))).

(** The tests of line 129 in the order of the loops of lines 127-128. *)
Definition jump_tests : list bool :=
  concat (map (fun w => map (fun b => 0 <? N.land w (N.shiftl 1 b)) (map N.of_nat (seq 0 64))) jump_words).

(** Lines 137-139 *)
Definition jump_write (t : list N) (st : xs1024) : xs1024 :=
  XS1024 (foldl (fun s j => <[N.to_nat (N.land (N.of_nat j + x_p st) 15) := nth j t 0]> s) (x_s st) (seq 0 16)) (x_p st).

(** Jump, lines 125-140 *)
Definition xs1024_jump (st : xs1024) : xs1024 :=
  let acc := foldl jump_round (replicate 16 0, st) jump_tests in
  jump_write (fst acc) (snd acc).
