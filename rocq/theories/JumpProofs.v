(** xorshift1024: Jump is a polynomial in the step, so it commutes with drawing; but the
    step has short cycles, on which Jump is not 2^512 steps. *)
From Verif Require Import Base RngModel RngSpec RngProofs JumpModel JumpSpec PeriodProofs.
Local Open Scope N_scope.

(** ** The 16 words in the order in which they are used *)
Fixpoint tup (n : nat) : Type := match n with O => unit | S n => (N * tup n)%type end.
Fixpoint tz (n : nat) : tup n := match n with O => tt | S n => (0, tz n) end.
Fixpoint tx (n : nat) : tup n -> tup n -> tup n :=
  match n with O => fun _ _ => tt | S n => fun a b => (N.lxor (fst a) (fst b), tx n (snd a) (snd b)) end.
Fixpoint tf (f : nat -> N) (k n : nat) : tup n := match n with O => tt | S n => (f k, tf f (S k) n) end.
Fixpoint tlist (n : nat) : tup n -> list N := match n with O => fun _ => [] | S n => fun a => fst a :: tlist n (snd a) end.

Lemma txA n a b c : tx n a (tx n b c) = tx n (tx n a b) c.
Proof. induction n as [|n IH]; [reflexivity|]. cbn. rewrite N.lxor_assoc, IH. reflexivity. Qed.
Lemma txC n a b : tx n a b = tx n b a.
Proof. induction n as [|n IH]; [reflexivity|]. cbn. rewrite N.lxor_comm, IH. reflexivity. Qed.
Lemma txz n a : tx n (tz n) a = a.
Proof. induction n as [|n IH]; [destruct a; reflexivity|]. destruct a. cbn [tx tz fst snd]. rewrite N.lxor_0_l, IH. reflexivity. Qed.
Lemma txx n a : tx n a a = tz n.
Proof. induction n as [|n IH]; [reflexivity|]. cbn. rewrite N.lxor_nilpotent, IH. reflexivity. Qed.
Lemma tlist_x n a b : tlist n (tx n a b) = zip_with N.lxor (tlist n a) (tlist n b).
Proof. induction n as [|n IH]; [reflexivity|]. cbn. rewrite IH. reflexivity. Qed.
Lemma tlist_z n : tlist n (tz n) = replicate n 0.
Proof. induction n as [|n IH]; [reflexivity|]. cbn. rewrite IH. reflexivity. Qed.
Lemma tlist_f f k n : tlist n (tf f k n) = map f (seq k n).
Proof. revert k. induction n as [|n IH]; intros k; [reflexivity|]. cbn. rewrite IH. reflexivity. Qed.
Lemma tlist_inj n a b : tlist n a = tlist n b -> a = b.
Proof.
  induction n as [|n IH]; [destruct a, b; reflexivity|]. destruct a as [a1 a2], b as [b1 b2]. cbn. intros H.
  assert (a1 = b1) as -> by congruence. f_equal. apply IH. congruence.
Qed.

(** The new word, rng.go 119-120 *)
Definition mix (s0 s1 : N) : N :=
  let s1 := N.lxor s1 (shl64 s1 31) in N.lxor (N.lxor (N.lxor s1 s0) (shr64 s1 1)) (shr64 s0 30).
Definition shift16 (mx : N -> N -> N) (v : tup 16) : tup 16 :=
  let '(a,(b,(c,(d,(e,(f,(g,(h,(i,(j,(k,(l,(m,(n,(o,(p,_)))))))))))))))) := v in
  (mx a b,(c,(d,(e,(f,(g,(h,(i,(j,(k,(l,(m,(n,(o,(p,(a,tt)))))))))))))))).
Definition T16 : tup 16 -> tup 16 := shift16 mix.
Definition view (st : xs1024) : tup 16 := tf (x_word st) 0 16.
Definition xnext (st : xs1024) : xs1024 := fst (xs1024_next st).

Lemma mix_x a b c d : mix (N.lxor a c) (N.lxor b d) = N.lxor (mix a b) (mix c d).
Proof.
  unfold mix. rewrite shl64_lxor, (lxor_swap4 b d). generalize (N.lxor b (shl64 b 31)) (N.lxor d (shl64 d 31)). intros p q.
  cbn zeta. rewrite !shr64_lxor, (lxor_swap4 p q a c), (lxor_swap4 (N.lxor p a)). apply lxor_swap4.
Qed.
Lemma T16_x a b : T16 (tx 16 a b) = tx 16 (T16 a) (T16 b).
Proof.
  cbn [tup] in a, b.
  destruct a as (a1&a2&a3&a4&a5&a6&a7&a8&a9&a10&a11&a12&a13&a14&a15&a16&[]), b as (b1&b2&b3&b4&b5&b6&b7&b8&b9&b10&b11&b12&b13&b14&b15&b16&[]).
  unfold T16, shift16. cbn [tx fst snd]. rewrite mix_x. reflexivity.
Qed.

(** ** One draw *)
Lemma xnext_eq s p : xs1024_next (XS1024 s p) =
  let i := N.land p 15 in let j := N.land (i + 1) 15 in let v := mix (nth (N.to_nat i) s 0) (nth (N.to_nat j) s 0) in
  (XS1024 (<[N.to_nat j := v]> s) j, mul64 v 1181783497276652981).
Proof. reflexivity. Qed.
Ltac sixteen s Hl :=
  do 16 (destruct s as [|? s]; [discriminate Hl|]); destruct s as [|? s]; [clear Hl|discriminate Hl].
Lemma lt16 p : p < 16 -> p = 0 \/ p = 1 \/ p = 2 \/ p = 3 \/ p = 4 \/ p = 5 \/ p = 6 \/ p = 7 \/ p = 8 \/ p = 9 \/ p = 10 \/ p = 11 \/ p = 12 \/ p = 13 \/ p = 14 \/ p = 15.
Proof. lia. Qed.
Ltac cases16 Hp := apply lt16 in Hp;
  destruct Hp as [->|[->|[->|[->|[->|[->|[->|[->|[->|[->|[->|[->|[->|[->|[-> | -> ]]]]]]]]]]]]]]].
Lemma view_next_any (m : N -> N -> N) s p : length s = 16%nat -> p < 16 ->
  view (let i := N.land p 15 in let j := N.land (i + 1) 15 in
        XS1024 (<[N.to_nat j := m (nth (N.to_nat i) s 0) (nth (N.to_nat j) s 0)]> s) j) = shift16 m (view (XS1024 s p)).
Proof. intros Hl Hp. sixteen s Hl. cases16 Hp; reflexivity. Qed.
Lemma view_next st : valid1024 st -> view (xnext st) = T16 (view st).
Proof. destruct st as [s p]. intros (Hl & _ & Hp). apply (view_next_any mix s p Hl Hp). Qed.
Lemma p_next st : valid1024 st -> x_p (xnext st) = (x_p st + 1) mod 16.
Proof.
  destruct st as [s p]. intros (Hl & _ & Hp). unfold xnext. rewrite xnext_eq. cbn [fst x_p] in *. rewrite !land15.
  rewrite N.add_mod_idemp_l by discriminate. reflexivity.
Qed.
Lemma next_valid st : valid1024 st -> valid1024 (xnext st).
Proof. intros H. apply (xs1024_ok st H). Qed.

(** The view and the position determine the state. *)
Lemma view_inj s t : valid1024 s -> valid1024 t -> x_p s = x_p t -> view s = view t -> s = t.
Proof.
  destruct s as [s p], t as [t q]. intros (Hl & _ & Hp) (Hl' & _ & Hq). cbn [x_s x_p] in *. intros <- E. f_equal. clear Hq.
  sixteen s Hl. sixteen t Hl'. cases16 Hp; vm_compute in E; congruence.
Qed.
Lemma draw_eq s : valid1024 s -> snd (xs1024_next s) = mul64 (mix (fst (view s)) (fst (snd (view s)))) 1181783497276652981.
Proof.
  destruct s as [s p]. intros (Hl & _ & Hp). rewrite xnext_eq. cbn [x_s x_p] in *. generalize mix. intros m. sixteen s Hl. cases16 Hp; reflexivity.
Qed.
Lemma draw_view s t : valid1024 s -> valid1024 t -> view s = view t -> snd (xs1024_next s) = snd (xs1024_next t).
Proof. intros Hs Ht E. rewrite !draw_eq, E by assumption. reflexivity. Qed.

(** ** Jump *)
Notation xev := (ev (tz 16) (tx 16) T16).
Fixpoint pe (bs : list bool) (v : tup 16) : tup 16 :=
  match bs with [] => tz 16 | b :: bs => tx 16 (if b then v else tz 16) (pe bs (T16 v)) end.
Fixpoint poly_of (bs : list bool) : N :=
  match bs with [] => 0 | b :: bs => if b then N.succ_double (poly_of bs) else N.double (poly_of bs) end.
Lemma pe_ev bs v : pe bs v = xev (poly_of bs) v.
Proof.
  revert v. induction bs as [|[] bs IH]; intros v; [reflexivity| |]; cbn [pe poly_of].
  - rewrite IH. symmetry. apply (ev_succ_double (tz 16) (tx 16) T16 (txC 16) (txz 16)).
  - rewrite IH, txz. symmetry. apply ev_double.
Qed.
Lemma x_view_tlist st : x_view st = tlist 16 (view st).
Proof. symmetry. apply tlist_f. Qed.
Lemma rounds bs a st : valid1024 st ->
  foldl jump_round (tlist 16 a, st) bs = (tlist 16 (tx 16 a (pe bs (view st))), Nat.iter (length bs) xnext st) /\
  valid1024 (Nat.iter (length bs) xnext st) /\
  x_p (Nat.iter (length bs) xnext st) = (x_p st + N.of_nat (length bs)) mod 16.
Proof.
  revert a st. induction bs as [|b bs IH]; intros a st H; cbn [foldl pe].
  - rewrite (txC 16), txz. split; [reflexivity|]. split; [exact H|]. destruct H as (_ & _ & Hp). cbn [length Nat.iter nat_rect N.of_nat].
    rewrite N.add_0_r, N.mod_small by exact Hp. reflexivity.
  - replace (jump_round (tlist 16 a, st) b) with (tlist 16 (tx 16 a (if b then view st else tz 16)), xnext st).
    2:{ unfold jump_round, xnext. cbn [fst snd]. destruct b; [rewrite tlist_x, x_view_tlist; reflexivity|]. rewrite (txC 16), txz. reflexivity. }
    destruct (IH (tx 16 a (if b then view st else tz 16)) (xnext st) (next_valid st H)) as (E & Hv & Hp).
    assert (Hi : Nat.iter (length (b :: bs)) xnext st = Nat.iter (length bs) xnext (xnext st)).
    { cbn [length]. apply Nat.iter_succ_r. }
    rewrite Hi, E, view_next, txA by exact H. split; [reflexivity|]. split; [exact Hv|].
    rewrite Hp, p_next by exact H. rewrite N.add_mod_idemp_l by discriminate. f_equal. cbn [length]. lia.
Qed.
Lemma write_view t st : length t = 16%nat -> length (x_s st) = 16%nat -> x_p st < 16 -> x_view (jump_write t st) = t.
Proof. destruct st as [s p]. cbn [x_s x_p]. intros Ht Hl Hp. sixteen t Ht. sixteen s Hl. cases16 Hp; reflexivity. Qed.
Lemma write_keeps t st : valid1024 st -> Forall (fun x => x < 2 ^ 64) t -> valid1024 (jump_write t st).
Proof.
  intros (Hl & Hf & Hp) Ht. unfold jump_write.
  assert (G : forall js s, length s = 16%nat -> Forall (fun x => x < 2 ^ 64) s ->
    valid1024 (XS1024 (foldl (fun s j => <[N.to_nat (N.land (N.of_nat j + x_p st) 15) := nth j t 0]> s) s js) (x_p st))).
  { intros js. induction js as [|j js IH]; intros s H1 H2; cbn [foldl]; [split; [exact H1|split; assumption]|].
    apply IH; [rewrite insert_length; exact H1|]. apply Forall_insert; [exact H2|]. apply (nth_lt t j Ht). }
  apply G; assumption.
Qed.

Fixpoint tok (n : nat) : tup n -> Prop := match n with O => fun _ => True | S n => fun a => fst a < 2 ^ 64 /\ tok n (snd a) end.
Lemma tok_list n a : tok n a <-> Forall (fun x => x < 2 ^ 64) (tlist n a).
Proof.
  induction n as [|n IH]; cbn [tok tf tx tz tlist fst snd]; [split; constructor|]. rewrite IH. split; [intros [H1 H2]; constructor; assumption|].
  intros H. inversion H; subst. split; assumption.
Qed.
Lemma tok_x n a b : tok n a -> tok n b -> tok n (tx n a b).
Proof. induction n as [|n IH]; cbn [tok tf tx tz tlist fst snd]; [auto|]. intros [H1 H2] [H3 H4]. split; [apply lxor_lt64; assumption|apply IH; assumption]. Qed.
Lemma tok_z n : tok n (tz n).
Proof. induction n as [|n IH]; cbn [tok tf tx tz tlist fst snd]; [exact I|]. split; [reflexivity|exact IH]. Qed.
Lemma tok_view st : valid1024 st -> tok 16 (view st).
Proof.
  intros (_ & Hf & _). assert (G : forall n k, tok n (tf (x_word st) k n)); [|apply G].
  intros n. induction n as [|n IH]; intros k; cbn [tok tf fst snd]; [exact I|].
  split; [apply (nth_lt _ _ Hf)|apply IH].
Qed.
Lemma tok_pe bs st : valid1024 st -> tok 16 (pe bs (view st)).
Proof.
  revert st. induction bs as [|b bs IH]; intros st H; cbn [pe]; [apply tok_z|].
  apply tok_x; [destruct b; [apply tok_view, H|apply tok_z]|]. rewrite <- view_next by exact H. apply IH, next_valid, H.
Qed.

Lemma tests_length : length jump_tests = 1024%nat.
Proof. vm_compute. reflexivity. Qed.
Lemma jump_ok st : valid1024 st ->
  valid1024 (xs1024_jump st) /\ x_p (xs1024_jump st) = x_p st /\ view (xs1024_jump st) = pe jump_tests (view st).
Proof.
  intros H. destruct (rounds jump_tests (tz 16) st H) as (E & Hv & Hp). unfold xs1024_jump.
  rewrite <- tlist_z, E, txz. clear E. cbn [fst snd]. cbv zeta.
  assert (Hf : Forall (fun x => x < 2 ^ 64) (tlist 16 (pe jump_tests (view st)))) by (apply tok_list, tok_pe, H).
  assert (Hp' : x_p (Nat.iter (length jump_tests) xnext st) = x_p st).
  { rewrite Hp, tests_length. destruct H as (_ & _ & Hq). change (N.of_nat 1024) with (64 * 16). rewrite N.mod_add by discriminate. apply N.mod_small, Hq. }
  clear Hp. revert Hv Hp' Hf. generalize (Nat.iter (length jump_tests) xnext st) (pe jump_tests (view st)). intros s t Hv Hp' Hf.
  split; [apply write_keeps; assumption|]. split; [exact Hp'|].
  apply tlist_inj. rewrite <- x_view_tlist. destruct Hv as (H1 & _ & H2). apply write_view; [|exact H1|exact H2].
  clear. cbn [tup] in t. reflexivity.
Qed.
Lemma jump_next st : valid1024 st -> xs1024_jump (xnext st) = xnext (xs1024_jump st).
Proof.
  intros H. destruct (jump_ok st H) as (Hv & Hp & E), (jump_ok _ (next_valid st H)) as (Hv' & Hp' & E').
  apply view_inj; [exact Hv'|apply next_valid, Hv| |].
  - rewrite Hp', !p_next, Hp by assumption. reflexivity.
  - rewrite E', !view_next, E, !pe_ev by assumption.
    apply (ev_T (tz 16) (tx 16) T16 (txx 16) T16_x).
Qed.
Lemma after_valid st n : valid1024 st -> valid1024 (after1024 st n).
Proof. intros H. unfold after1024. apply N.iter_ind; [exact H|]. intros _ s IH. apply next_valid, IH. Qed.
Lemma jump_after st n : valid1024 st -> xs1024_jump (after1024 st n) = after1024 (xs1024_jump st) n.
Proof.
  intros H. induction n as [|n IH] using N.peano_ind; [reflexivity|]. unfold after1024 in *. rewrite !N.iter_succ.
  rewrite <- IH. apply jump_next. apply after_valid, H.
Qed.
Lemma jump_draws st n k : valid1024 st -> draw1024 (xs1024_jump (after1024 st n)) k = draw1024 (xs1024_jump st) (n + k).
Proof.
  intros H. unfold draw1024. rewrite jump_after by exact H. unfold after1024. rewrite (N.add_comm n), N.iter_add. reflexivity.
Qed.

(** ** A short cycle *)
Definition f16 : N := 0x11a31.
Definition short : xs1024 := XS1024
  [0xac6e8a0b60870; 0x80763e754894bf39; 0xd77a20e1c3b3517d; 0x84a92b75068eccab; 0x56b69f94809a9c64; 0x37935e239bcad199;
   0x9a3912393ac049ce; 0x50de05007750abe5; 0xe031c0a53fc1ca24; 0x12f77b9b2f805a3c; 0x4f624d3231212dd9; 0xd0825a93a25aca3b;
   0x5b7f83295b5997eb; 0xfe92b810fa56e2b; 0xd92c9d4f95574224; 0xa9d640839c38e92f] 0.
Lemma short_live : live1024 short.
Proof. split; [split; [reflexivity|]|discriminate]. split; [|reflexivity]. apply (bool_decide_unpack _). vm_compute. exact I. Qed.
Lemma short_kills : kills (tz 16) (tx 16) T16 f16 (view short).
Proof. vm_compute. reflexivity. Qed.
Lemma view_after st k : valid1024 st -> view (after1024 st k) = N.iter k T16 (view st).
Proof.
  intros H. induction k as [|k IH] using N.peano_ind; [reflexivity|]. unfold after1024 in *. rewrite !N.iter_succ, <- IH.
  apply view_next. apply after_valid, H.
Qed.
Lemma short_pow k : view (after1024 short (Npos k)) = xev (powp 16 f16 k 2) (view short).
Proof.
  rewrite view_after by apply short_live. symmetry.
  apply (ev_pow (tz 16) (tx 16) T16 (txA 16) (txC 16) (txz 16) (txx 16) T16_x 16 f16 k (view short) short_kills).
Qed.
Lemma after_add st n m : after1024 st (n + m) = after1024 (after1024 st m) n.
Proof. apply N.iter_add. Qed.
Lemma short_return : view (after1024 short 4369) = view short.
Proof. rewrite short_pow. vm_compute. reflexivity. Qed.
Lemma short_cycle n : draw1024 short (n + 4369) = draw1024 short n.
Proof.
  unfold draw1024. apply draw_view; [apply after_valid, short_live..|].
  rewrite after_add, (view_after _ n), (view_after short n) by (try apply after_valid; apply short_live). rewrite short_return. reflexivity.
Qed.

(** x^(2^512) = x modulo the polynomial of the cycle *)
Lemma far_pow : powp 16 f16 (2 ^ 512) 2 = 2.
Proof. vm_compute. reflexivity. Qed.
Lemma short_far k : powp 16 f16 k 2 = 2 -> draw1024 short (Npos k) = draw1024 short 1.
Proof.
  intros Hk. unfold draw1024. apply draw_view; [apply after_valid, short_live..|].
  rewrite short_pow, Hk, view_after by apply short_live. reflexivity.
Qed.
Lemma jump_poly : mul 16 f16 (poly_of jump_tests) 1 = 0x85ec.
Proof. vm_compute. reflexivity. Qed.
Lemma short_jump : view (xs1024_jump short) = xev 0x85ec (view short).
Proof.
  destruct (jump_ok short (proj1 short_live)) as (_ & _ & ->). rewrite pe_ev, <- jump_poly.
  rewrite (ev_mul (tz 16) (tx 16) T16 (txA 16) (txC 16) (txz 16) (txx 16) T16_x 16 f16 _ _ (view short) short_kills). reflexivity.
Qed.
Lemma jump_not : draw1024 (xs1024_jump short) 0 <> draw1024 short (2 ^ 512).
Proof.
  change (2 ^ 512) with (Npos (2 ^ 512)). rewrite (short_far _ far_pow).
  unfold draw1024 at 1. change (after1024 (xs1024_jump short) 0) with (xs1024_jump short).
  rewrite (draw_eq (xs1024_jump short)) by apply jump_ok, short_live. rewrite short_jump. vm_compute. discriminate.
Qed.
