(** Proofs about request routing. *)
From Verif Require Import Base BaseProofs Strings HttpModel HttpSpec HttpProofs CallersModel RouteModel RouteSpec.
Open Scope Z_scope.
Local Arguments B : simpl never.

(** ** Segments *)
Lemma segments_exist path : exists l, segments path l.
Proof.
  cut (exists pieces, pieces <> [] /\ path = join [slash] pieces /\ Forall (fun p => slash ∉ p) pieces).
  { intros (ps & H1 & H2 & H3). exists (List.filter (fun p => negb (beqb p [])) ps), ps. auto. }
  induction path as [|c path (ps & Hne & -> & Hall)].
  - exists [[]]. split_and!; [discriminate|reflexivity|]. constructor; [inversion 1|constructor].
  - destruct (ascii_dec c slash) as [->|Hc].
    + exists ([] :: ps). split_and!; [discriminate| |constructor; [inversion 1|exact Hall]].
      destruct ps; [destruct (Hne eq_refl)|reflexivity].
    + destruct ps as [|p ps]; [destruct (Hne eq_refl)|]. inversion Hall as [|? ? Hp Hps]; subst.
      exists ((c :: p) :: ps). split_and!; [discriminate| |].
      * destruct ps; reflexivity.
      * constructor; [|exact Hps]. intros Hin. inversion Hin; subst; auto.
Qed.

Lemma trim_left_skip c s : trim_left c (c :: s) = trim_left c s.
Proof. cbn [trim_left]. rewrite Ascii.eqb_refl. reflexivity. Qed.
Lemma trim_left_keep c a s : a <> c -> trim_left c (a :: s) = a :: s.
Proof. intros H. cbn [trim_left]. apply Ascii.eqb_neq in H. rewrite H. reflexivity. Qed.
Lemma filter_nonempty p ps : p <> [] -> List.filter (fun p => negb (beqb p [])) (p :: ps) = p :: List.filter (fun p => negb (beqb p [])) ps.
Proof. intros H. cbn [List.filter]. unfold beqb at 1. rewrite bool_decide_eq_false_2 by exact H. reflexivity. Qed.

Lemma shift_segments path l : segments path l ->
  exists rest, shift path = (List.hd [] l, rest) /\ segments rest (List.tl l).
Proof.
  intros (ps & Hne & -> & Hall & ->). induction ps as [|p ps IH]; [destruct (Hne eq_refl)|].
  inversion Hall as [|? ? Hp Hps]; subst. destruct p as [|a p].
  - destruct ps as [|p' ps].
    + exists []. split; [reflexivity|]. exists [[]]. split_and!; [discriminate|reflexivity| |reflexivity]. exact Hall.
    + destruct IH as (rest & Hs & Hr); [discriminate|exact Hps|]. exists rest.
      split; [|exact Hr]. change (join [slash] ([] :: p' :: ps)) with (slash :: join [slash] (p' :: ps)).
      unfold shift. rewrite trim_left_skip. exact Hs.
  - rewrite filter_nonempty by discriminate. cbn [List.hd List.tl].
    assert (a <> slash) as Ha by (intros ->; apply Hp; left).
    destruct ps as [|p' ps].
    + exists []. unfold shift. cbn [join]. rewrite trim_left_keep by exact Ha. rewrite index_byte_none by exact Hp.
      split; [reflexivity|]. exists [[]]. split_and!; [discriminate|reflexivity| |reflexivity]. constructor; [inversion 1|constructor].
    + exists (slash :: join [slash] (p' :: ps)).
      change (join [slash] ((a :: p) :: p' :: ps)) with ((a :: p) ++ slash :: join [slash] (p' :: ps)).
      unfold shift. cbn [app]. rewrite trim_left_keep by exact Ha.
      change (a :: p ++ slash :: join [slash] (p' :: ps)) with ((a :: p) ++ slash :: join [slash] (p' :: ps)).
      rewrite index_byte_app by exact Hp. rewrite take_app, drop_app. split; [reflexivity|].
      exists ([] :: p' :: ps). split_and!; [discriminate|reflexivity| |reflexivity].
      constructor; [inversion 1|exact Hps].
Qed.
Lemma segments_nonempty path l : segments path l -> Forall (fun p => p <> []) l.
Proof.
  intros (ps & _ & _ & _ & ->). apply Forall_forall. intros p Hp.
  apply elem_of_list_In, filter_In in Hp as [_ Hp]. intros ->. discriminate.
Qed.

(** ** Routing on the first two segments *)
Section request.
  Context (compile : bytes -> option (bytes -> bool)) (url_ok : bytes -> bool) (name : nat -> bytes) (funcs : list nat).
  Local Notation span_m := (span_matcher compile name funcs).
  Local Notation fn_m := (fn_matcher compile name funcs).
  Local Notation wantsq := (wants compile name funcs).

  Definition trace_answer (second : bytes) (q : query) : answer :=
    if beqb (q_regex q) [] && beqb (q_trace_id q) [] then ABadRequest
    else
      match span_m q with
      | None => ABadRequest
      | Some m =>
          if beqb second (B "svg") then ATrace TSvg ct_svg m
          else if beqb second (B "json") then ATrace TJson ct_json m
          else if beqb second (B "remote") then
            ATrace (TRemote (send_json url_ok (q_viz q))) (if send_json url_ok (q_viz q) then ct_json else ct_html) m
          else ANotFound
      end.
  Definition page_answer (l : list bytes) : option page :=
    snd <$> List.find (fun e => bool_decide (fst e = l)) pages.
  Lemma from_request_eq path l q : segments path l ->
    from_request compile url_ok name funcs path q =
    match page_answer (take 2 l) with
    | Some p => APage p (content_type p)
    | None => if beqb (List.hd [] l) (B "trace") then trace_answer (List.hd [] (List.tl l)) q else ANotFound
    end.
  Proof.
    intros Hl. pose proof (segments_nonempty _ _ Hl) as Hne. destruct (shift_segments _ _ Hl) as (rest & E1 & Hr).
    destruct (shift_segments _ _ Hr) as (rest' & E2 & _). unfold from_request. rewrite E1, E2. clear E1 E2 Hr Hl rest rest' path.
    fold (trace_answer (List.hd [] (List.tl l)) q).
    destruct l as [|a l]; [reflexivity|]. inversion Hne as [|? ? Ha Hne']; subst.
    destruct l as [|b l]; cbn [List.hd List.tl take].
    - unfold beqb. rewrite (bool_decide_eq_false_2 _ Ha).
      destruct (decide (a = B "ps")) as [->|]; [reflexivity|].
      destruct (decide (a = B "funcs")) as [->|]; [reflexivity|].
      destruct (decide (a = B "stats")) as [->|]; [reflexivity|].
      rewrite !(bool_decide_eq_false_2 (a = _)) by assumption.
      destruct (page_answer [a]) eqn:E; [|destruct (bool_decide (a = B "trace")); reflexivity].
      exfalso. unfold page_answer in E. destruct (List.find _ pages) as [[x y]|] eqn:F; [|discriminate].
      apply List.find_some in F as [F1 F2]. apply bool_decide_eq_true in F2. cbn [fst] in F2. subst x.
      repeat (destruct F1 as [F1|F1]; [injection F1; intros; subst; congruence|]). destruct F1.
    - inversion Hne' as [|? ? Hb _]; subst. rewrite take_0.
      unfold beqb. rewrite (bool_decide_eq_false_2 _ Ha), (bool_decide_eq_false_2 (b = [])) by assumption. cbn [orb].
      Local Ltac nopage := match goal with |- context [page_answer ?l] =>
          let E := fresh in let F := fresh in let F1 := fresh in let F2 := fresh in
          destruct (page_answer l) eqn:E;
          [exfalso; unfold page_answer in E; destruct (List.find _ pages) as [[? ?]|] eqn:F; [|discriminate];
           apply List.find_some in F as [F1 F2]; apply bool_decide_eq_true in F2; cbn [fst] in F2; subst;
           repeat (destruct F1 as [F1|F1]; [injection F1; intros; subst; congruence|]); destruct F1|] end.
      destruct (decide (a = B "ps")) as [->|].
      { destruct (decide (b = B "text")) as [->|]; [reflexivity|]. destruct (decide (b = B "dot")) as [->|]; [reflexivity|].
        destruct (decide (b = B "json")) as [->|]; [reflexivity|]. nopage.
        rewrite !(bool_decide_eq_false_2 (b = _)) by assumption. reflexivity. }
      destruct (decide (a = B "funcs")) as [->|].
      { destruct (decide (b = B "text")) as [->|]; [reflexivity|]. destruct (decide (b = B "dot")) as [->|]; [reflexivity|].
        destruct (decide (b = B "json")) as [->|]; [reflexivity|]. nopage.
        rewrite !(bool_decide_eq_false_2 (b = _)) by assumption. reflexivity. }
      destruct (decide (a = B "stats")) as [->|].
      { destruct (decide (b = B "text")) as [->|]; [reflexivity|]. destruct (decide (b = B "old")) as [->|]; [reflexivity|].
        destruct (decide (b = B "json")) as [->|]; [reflexivity|]. nopage.
        rewrite !(bool_decide_eq_false_2 (b = B "text")), !(bool_decide_eq_false_2 (b = B "old")), !(bool_decide_eq_false_2 (b = B "json")) by assumption.
        reflexivity. }
      nopage. rewrite !(bool_decide_eq_false_2 (a = _)) by assumption.
      destruct (bool_decide (a = B "trace")); reflexivity.
  Qed.

  (** ** Pages *)
  Lemma page_answer_spec l p : page_answer l = Some p <-> (l, p) ∈ pages.
  Proof.
    unfold page_answer. split.
    - destruct (List.find _ pages) as [[x y]|] eqn:F; [|discriminate]. apply List.find_some in F as [F1 F2].
      apply bool_decide_eq_true in F2. cbn [fst] in F2. subst x. intros E. injection E as <-. apply elem_of_list_In, F1.
    - intros H. apply elem_of_list_In in H.
      repeat (destruct H as [H|H]; [injection H; intros; subst; reflexivity|]). destruct H.
  Qed.
  Lemma pages_first l p : (l, p) ∈ pages -> List.hd [] l <> B "trace".
  Proof.
    intros H. apply elem_of_list_In in H.
    repeat (destruct H as [H|H]; [injection H; intros; subst; discriminate|]). destruct H.
  Qed.

  (** ** The matcher *)
  Lemma existsb_beqb s l : List.existsb (beqb s) l = true <-> s ∈ l.
  Proof.
    rewrite existsb_exists. split.
    - intros (x & Hx & E). apply beqb_true in E. subst. apply elem_of_list_In, Hx.
    - intros H. exists s. split; [apply elem_of_list_In, H|]. apply beqb_true. reflexivity.
  Qed.
  Lemma parse_bool_spec s b : parse_bool s = Some b <-> spelled b s.
  Proof.
    unfold parse_bool, spelled.
    set (L1 := [B "1"; B "t"; B "T"; B "TRUE"; B "true"; B "True"]). set (L0 := [B "0"; B "f"; B "F"; B "FALSE"; B "false"; B "False"]).
    assert (D : forall x, x ∈ L1 -> x ∈ L0 -> False).
    { assert (H : Forall (fun x => x ∉ L0) L1) by (apply (bool_decide_unpack _); vm_compute; exact I).
      rewrite Forall_forall in H. exact H. }
    pose proof (existsb_beqb s L1) as H1. pose proof (existsb_beqb s L0) as H0. specialize (D s).
    destruct (List.existsb (beqb s) L1), (List.existsb (beqb s) L0), b; split; intros H; try congruence;
      first [apply H1; reflexivity | apply H0; reflexivity | apply H0 in H; congruence | apply H1 in H; congruence | exfalso; apply D; [apply H1; reflexivity|apply H0; reflexivity] | idtac].
  Qed.
  Lemma spelled_nonempty b s : spelled b s -> s <> [].
  Proof.
    intros H ->. revert H. unfold spelled. intros H.
    assert (N : forall c : bool, ([] : bytes) ∉ (if c then [B "1"; B "t"; B "T"; B "TRUE"; B "true"; B "True"] else [B "0"; B "f"; B "F"; B "FALSE"; B "false"; B "False"])).
    { intros []; apply (bool_decide_unpack _); vm_compute; exact I. }
    exact (N b H).
  Qed.
  Lemma fn_matcher_some q m : fn_m q = Some m -> regex_wants compile name funcs q (fun f => m f = true).
  Proof.
    unfold fn_matcher, regex_wants. destruct (q_regex q) as [|c re] eqn:Er.
    - intros E. injection E as <-. left. split; [reflexivity|]. intros f. split; auto.
    - intros E. right. split; [discriminate|]. destruct (compile (c :: re)) as [r|]; [|discriminate].
      assert (exists b, (match q_preselect q with [] => Some true | p => parse_bool p end) = Some b /\ preselect q b) as (b & Hb & Hp).
      { unfold preselect. destruct (q_preselect q) as [|d p]; [exists true; split; [reflexivity|left; auto]|].
        destruct (parse_bool (d :: p)) as [b|] eqn:Eb; [|discriminate]. exists b. split; [reflexivity|]. right. apply parse_bool_spec, Eb. }
      rewrite Hb in E. exists r, b. split; [reflexivity|]. split; [exact Hp|]. destruct b.
      + destruct (List.filter (fun f => r (name f)) funcs) as [|g sel] eqn:Es; [discriminate|].
        apply Some_inj in E. split.
        * intros _. exists g. assert (In g (List.filter (fun f => r (name f)) funcs)) as Hg by (rewrite Es; left; reflexivity).
          apply filter_In in Hg as [Hg1 Hg2]. split; [apply elem_of_list_In, Hg1|exact Hg2].
        * intros f. rewrite <- E, existsb_exists, <- Es. split.
          -- intros (x & Hx & Ex). apply Nat.eqb_eq in Ex. subst x. apply filter_In in Hx as [Hx1 Hx2].
             split; [exact Hx2|]. intros _. apply elem_of_list_In, Hx1.
          -- intros [H1 H2]. exists f. split; [|apply Nat.eqb_refl]. apply filter_In. split; [apply elem_of_list_In, H2; reflexivity|exact H1].
      + injection E as <-. split; [discriminate|]. intros f. split; [intros H; split; [exact H|discriminate]|intros [H _]; exact H].
  Qed.
  Lemma regex_wants_unique q F F' : regex_wants compile name funcs q F -> regex_wants compile name funcs q F' -> forall f, F f <-> F' f.
  Proof.
    intros [[H1 H2]|[H1 (m & b & Hm & Hb & _ & H2)]] [[H1' H2']|[H1' (m' & b' & Hm' & Hb' & _ & H2')]] f; try contradiction.
    - rewrite H2, H2'. tauto.
    - assert (m' = m) as -> by congruence. assert (b' = b) as ->.
      { destruct Hb as [[P ->]|Q], Hb' as [[P' ->]|Q']; [reflexivity|destruct (spelled_nonempty _ _ Q' P)|destruct (spelled_nonempty _ _ Q P')|].
        apply parse_bool_spec in Q, Q'. congruence. }
      rewrite H2, H2'. tauto.
  Qed.
  Lemma fn_matcher_total q F : regex_wants compile name funcs q F -> exists m, fn_m q = Some m.
  Proof.
    unfold fn_matcher. intros [[-> H2]|[H1 (r & b & Hr & Hb & Hex & H2)]]; [eauto|].
    destruct (q_regex q) as [|c re]; [destruct (H1 eq_refl)|]. rewrite Hr.
    assert ((match q_preselect q with [] => Some true | p => parse_bool p end) = Some b) as ->.
    { destruct Hb as [[-> ->]|Q]; [reflexivity|]. pose proof (spelled_nonempty _ _ Q) as P.
      apply parse_bool_spec in Q. destruct (q_preselect q); [destruct (P eq_refl)|exact Q]. }
    destruct b; [|eauto]. destruct (Hex eq_refl) as (f & Hf & Hm).
    destruct (List.filter (fun f => r (name f)) funcs) as [|g sel] eqn:Es; [|eauto].
    exfalso. assert (In f (List.filter (fun f => r (name f)) funcs)) as Hi by (apply filter_In; split; [apply elem_of_list_In, Hf|exact Hm]).
    rewrite Es in Hi. destruct Hi.
  Qed.
  Lemma id_field_unique s v v' : id_field s v -> id_field s v' -> v = v'.
  Proof. intros H H'. apply hex_to_uint64_spec in H, H'. congruence. Qed.
  Lemma trace_wants_unique q T T' : trace_wants q T -> trace_wants q T' -> forall t, T t <-> T' t.
  Proof.
    intros [[H1 H2]|(id & H1 & H2)] [[H1' H2']|(id' & H1' & H2')] t.
    - rewrite H2, H2'. tauto.
    - apply hex_to_uint64_spec in H1'. rewrite H1 in H1'. discriminate.
    - apply hex_to_uint64_spec in H1. rewrite H1' in H1. discriminate.
    - pose proof (id_field_unique _ _ _ H1 H1') as ->. rewrite H2, H2'. tauto.
  Qed.
  Lemma wants_unique q P P' : wantsq q P -> wantsq q P' -> forall f t, P f t <-> P' f t.
  Proof.
    intros (_ & F & T & HF & HT & H) (_ & F' & T' & HF' & HT' & H') f t.
    rewrite H, H', (regex_wants_unique q F F' HF HF' f), (trace_wants_unique q T T' HT HT' t). tauto.
  Qed.
  Lemma span_matcher_some q m : span_m q = Some m -> (q_regex q <> [] \/ q_trace_id q <> []) -> wantsq q (fun f t => m f t = true).
  Proof.
    intros H Hq. split; [exact Hq|]. unfold span_matcher in H. destruct (fn_m q) as [fm|] eqn:Ef; [|discriminate].
    apply fn_matcher_some in Ef. destruct (q_trace_id q) as [|c s] eqn:Et.
    - injection H as <-. exists (fun f => fm f = true), (fun _ => True). split; [exact Ef|]. split.
      + left. rewrite Et. split; [reflexivity|]. tauto.
      + intros f t. tauto.
    - destruct (hex_to_uint64 (c :: s)) as [id|] eqn:Eh; [|discriminate]. injection H as <-.
      exists (fun f => fm f = true), (fun t => t = id). split; [exact Ef|]. split.
      + right. exists id. rewrite Et. split; [apply hex_to_uint64_spec, Eh|tauto].
      + intros f t. rewrite andb_true_iff, Z.eqb_eq. tauto.
  Qed.
  Lemma span_matcher_total q P : wantsq q P -> exists m, span_m q = Some m.
  Proof.
    intros (_ & F & T & HF & HT & _). unfold span_matcher. destruct (fn_matcher_total q F HF) as (fm & ->).
    destruct HT as [[-> _]|(id & Hid & _)]; [eauto|]. apply hex_to_uint64_spec in Hid.
    destruct (q_trace_id q); [eauto|]. rewrite Hid. eauto.
  Qed.
  (** Either the parameters are bad, or there is a matcher. *)
  Lemma trace_answer_cases s q :
    (trace_answer s q = ABadRequest /\ ~ exists P, wantsq q P) \/
    (exists m, wantsq q (fun f t => m f t = true) /\
       trace_answer s q =
         if beqb s (B "svg") then ATrace TSvg ct_svg m
         else if beqb s (B "json") then ATrace TJson ct_json m
         else if beqb s (B "remote") then
            ATrace (TRemote (send_json url_ok (q_viz q))) (if send_json url_ok (q_viz q) then ct_json else ct_html) m
         else ANotFound).
  Proof.
    unfold trace_answer. destruct (beqb (q_regex q) [] && beqb (q_trace_id q) []) eqn:E0.
    { left. split; [reflexivity|]. intros (P & [H|H] & _); apply andb_true_iff in E0 as [E1 E2]; apply beqb_true in E1, E2; contradiction. }
    assert (q_regex q <> [] \/ q_trace_id q <> []) as Hq.
    { apply andb_false_iff in E0 as [E|E]; apply bool_decide_eq_false in E; auto. }
    destruct (span_m q) as [m|] eqn:Em.
    - right. exists m. split; [exact (span_matcher_some q m Em Hq)|reflexivity].
    - left. split; [reflexivity|]. intros (P & HP). destruct (span_matcher_total q P HP) as (m & Hm). congruence.
  Qed.

  (** ** The theorems *)
  Local Notation request := (from_request compile url_ok name funcs).
  Lemma request_page path l q p ct : segments path l ->
    (request path q = APage p ct <-> (take 2 l, p) ∈ pages /\ ct = content_type p).
  Proof.
    intros Hl. rewrite (from_request_eq path l q Hl), <- page_answer_spec.
    destruct (page_answer (take 2 l)) as [p'|] eqn:E.
    - split; [intros H; injection H as -> <-; auto|intros [H ->]; injection H as ->; reflexivity].
    - split; [|intros [H _]; discriminate]. intros H. exfalso. destruct (beqb _ _); [|discriminate].
      destruct (trace_answer_cases (List.hd [] (List.tl l)) q) as [[E' _]|(m & _ & E')]; rewrite E' in H; [discriminate|].
      repeat (destruct (beqb _ _); [discriminate|]). discriminate.
  Qed.
  Lemma hd_take2 (l : list bytes) : List.hd [] (take 2 l) = List.hd [] l.
  Proof. destruct l as [|? [|? ?]]; reflexivity. Qed.
  Lemma request_trace path l q : segments path l -> List.hd [] l = B "trace" ->
    request path q = trace_answer (List.hd [] (List.tl l)) q.
  Proof.
    intros Hl Ht. rewrite (from_request_eq path l q Hl). destruct (page_answer (take 2 l)) as [p|] eqn:E.
    - apply page_answer_spec in E. apply pages_first in E. rewrite hd_take2 in E. contradiction.
    - rewrite Ht. unfold beqb. rewrite bool_decide_eq_true_2 by reflexivity. reflexivity.
  Qed.
  Lemma request_not_trace path l q : segments path l -> List.hd [] l <> B "trace" ->
    (exists p ct, request path q = APage p ct) \/ request path q = ANotFound.
  Proof.
    intros Hl Ht. rewrite (from_request_eq path l q Hl). destruct (page_answer (take 2 l)); [eauto|].
    unfold beqb. rewrite bool_decide_eq_false_2 by exact Ht. auto.
  Qed.
  Lemma send_json_spec q : no_visualizer url_ok q (send_json url_ok (q_viz q)).
  Proof.
    unfold no_visualizer, send_json, has_scheme. rewrite <- !has_prefix_spec.
    destruct (q_viz q) as [|c v]; [split; auto|].
    destruct (has_prefix (B "http:") (c :: v)) eqn:E1; cbn [orb].
    { rewrite negb_true_iff. split; [intros H; right; left; auto|]. intros [H|[[_ H]|[[H _] _]]]; [discriminate|exact H|contradiction]. }
    destruct (has_prefix (B "https:") (c :: v)) eqn:E2.
    { rewrite negb_true_iff. split; [intros H; right; left; auto|]. intros [H|[[_ H]|[[_ H] _]]]; [discriminate|exact H|contradiction]. }
    rewrite negb_true_iff. split; [intros H; right; right; auto|]. intros [H|[[[H|H] _]|[_ H]]]; [discriminate|discriminate|discriminate|exact H].
  Qed.
  Lemma trace_pages_take l s k : (s, k) ∈ trace_pages -> take 2 l = [B "trace"; s] <-> List.hd [] l = B "trace" /\ List.hd [] (List.tl l) = s.
  Proof.
    intros Hs. split.
    - destruct l as [|a [|b l]]; cbn [take]; [discriminate|discriminate|]. intros H. cbn [List.hd List.tl].
      split; congruence.
    - intros [H1 H2]. destruct l as [|a [|b l]]; cbn [List.hd List.tl] in *; [discriminate| |cbn [take]; rewrite take_0; congruence].
      subst s. exfalso. apply elem_of_list_In in Hs.
      repeat (destruct Hs as [Hs|Hs]; [discriminate|]). destruct Hs.
  Qed.
  Lemma request_traced path l q k ct m : segments path l -> request path q = ATrace k ct m ->
    exists s kf b, take 2 l = [B "trace"; s] /\ (s, kf) ∈ trace_pages /\ no_visualizer url_ok q b /\ k = kf b /\ ct = trace_type k /\
      wantsq q (fun f t => m f t = true).
  Proof.
    intros Hl E. destruct (decide (List.hd [] l = B "trace")) as [Ht|Ht].
    2:{ destruct (request_not_trace path l q Hl Ht) as [(p & c & E')|E']; congruence. }
    rewrite (request_trace path l q Hl Ht) in E.
    destruct (trace_answer_cases (List.hd [] (List.tl l)) q) as [[E' _]|(m' & Hm & E')]; rewrite E' in E; [discriminate|]. clear E'.
    pose proof (send_json_spec q) as Hj. revert E.
    unfold beqb. destruct (decide (List.hd [] (List.tl l) = B "svg")) as [E|N1].
    { rewrite bool_decide_eq_true_2 by exact E. intros A. injection A as <- <- <-.
      exists (B "svg"), (fun _ => TSvg), (send_json url_ok (q_viz q)).
      assert ((B "svg", fun _ : bool => TSvg) ∈ trace_pages) as Hi by (apply elem_of_list_In; left; reflexivity).
      split_and!; auto. apply (trace_pages_take l _ _ Hi). auto. }
    rewrite (bool_decide_eq_false_2 (_ = B "svg")) by exact N1.
    destruct (decide (List.hd [] (List.tl l) = B "json")) as [E|N2].
    { rewrite bool_decide_eq_true_2 by exact E. intros A. injection A as <- <- <-.
      exists (B "json"), (fun _ => TJson), (send_json url_ok (q_viz q)).
      assert ((B "json", fun _ : bool => TJson) ∈ trace_pages) as Hi by (apply elem_of_list_In; right; left; reflexivity).
      split_and!; auto. apply (trace_pages_take l _ _ Hi). auto. }
    rewrite (bool_decide_eq_false_2 (_ = B "json")) by exact N2.
    destruct (decide (List.hd [] (List.tl l) = B "remote")) as [E|N3]; [|rewrite bool_decide_eq_false_2 by exact N3; discriminate].
    rewrite bool_decide_eq_true_2 by exact E. intros A. injection A as <- <- <-.
    exists (B "remote"), TRemote, (send_json url_ok (q_viz q)).
    assert ((B "remote", TRemote) ∈ trace_pages) as Hi by (apply elem_of_list_In; right; right; left; reflexivity).
    split_and!; auto. apply (trace_pages_take l _ _ Hi). auto.
  Qed.
  Lemma request_traced_conv path l q s kf b P : segments path l ->
    take 2 l = [B "trace"; s] -> (s, kf) ∈ trace_pages -> no_visualizer url_ok q b -> wantsq q P ->
    exists m, request path q = ATrace (kf b) (trace_type (kf b)) m /\ forall f t, m f t = true <-> P f t.
  Proof.
    intros Hl Ht Hs Hb HP. apply (trace_pages_take l s kf Hs) in Ht as [H1 H2].
    rewrite (request_trace path l q Hl H1), H2.
    destruct (trace_answer_cases s q) as [[_ N]|(m & Hm & ->)]; [destruct N; eauto|].
    assert (b = send_json url_ok (q_viz q)) as ->.
    { pose proof (send_json_spec q) as Hj. unfold no_visualizer in *. rewrite <- Hj in Hb. destruct b, (send_json url_ok (q_viz q)); intuition congruence. }
    exists m. split; [|intros f t; exact (wants_unique q _ P Hm HP f t)].
    apply elem_of_list_In in Hs.
    repeat (destruct Hs as [Hs|Hs]; [apply pair_equal_spec in Hs as [<- <-]; cbn [trace_type]; first [reflexivity|destruct (send_json url_ok (q_viz q)); reflexivity]|]).
    destruct Hs.
  Qed.
  Lemma request_bad path l q : segments path l ->
    (request path q = ABadRequest <-> List.hd [] l = B "trace" /\ ~ exists P, wantsq q P).
  Proof.
    intros Hl. destruct (decide (List.hd [] l = B "trace")) as [Ht|Ht].
    - rewrite (request_trace path l q Hl Ht).
      destruct (trace_answer_cases (List.hd [] (List.tl l)) q) as [[-> N]|(m & Hm & ->)]; [tauto|]. split.
      + repeat (destruct (beqb _ _); [discriminate|]). discriminate.
      + intros [_ N]. destruct N. eauto.
    - split; [|intros [H _]; contradiction]. intros E. destruct (request_not_trace path l q Hl Ht) as [(p & c & E')|E']; congruence.
  Qed.
  Lemma request_total path q :
    (exists p ct, request path q = APage p ct) \/ (exists k ct m, request path q = ATrace k ct m) \/
    request path q = ABadRequest \/ request path q = ANotFound.
  Proof. destruct (request path q); eauto 10. Qed.
End request.
