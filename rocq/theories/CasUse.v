(** The programs that use the pointer functions: funcset.go and funcstats.go, trace.go and
    the observers of ctx.go, collect/collect.go, as in FuncStatsModel, ObserverModel and
    CollectModel, but with every access to a pointer as a call of those functions. *)
From Verif Require Import Base Conc CasModel FuncStatsModel ObserverModel CollectModel.

Definition no_hist {P S} : pres P -> S -> S := fun _ s => s.

(** funcset.go: s.first is loaded in Add (45) and Iterate (67) and set by
    compareAndSwapFunc(&s.first, nil, f) (48). *)
Definition fp_get (a : unit) (s : fs) : option parent := fs_first s.
Definition fp_set (a : unit) (v : option parent) (s : fs) : fs := set_first s v.
Definition f_prog (i : nat) (t : FuncStatsModel.fthread) : stmt unit (option parent) fs FuncStatsModel.fthread :=
  let go pc := FuncStatsModel.FThr (FuncStatsModel.ft_call t) pc in
  match FuncStatsModel.ft_call t, FuncStatsModel.ft_pc t with
  | FCall p _ _ _, FuncStatsModel.F_load =>
      Ptr (Load tt) no_hist (fun r => match r with RPtr v => if bool_decide (v = Some p) then go F_inc else go F_cas | _ => t end)
  | FCall p _ _ _, F_cas =>
      Ptr (Cas tt None (Some p)) no_hist (fun r => match r with RBool b => if b then go F_inc else go FuncStatsModel.F_lock | _ => t end)
  | FParents ord, F_iter2 rest =>
      Ptr (Load tt) no_hist (fun r => match r with
        | RPtr v => go (FuncStatsModel.F_done (FRParents (ord (elements (match v with Some f => {[f]} ∪ rest | None => rest end)))))
        | _ => t end)
  | _, _ => Other (fun s => f_step i s t)
  end.
Definition f_safe (sched : list (action FuncStatsModel.fcall)) := h_exec fp_get fp_set f_start f_prog fs_new sched.

(** trace.go 57, 61, 77, 79, 97, 104, 105; ctx.go 341, 351.  The address None is
    &t.spanObservers, Some n is &n.cdr.  A new node gets its cdr (trace.go 78) before it is
    published; nobody else can see it until then. *)
Definition ob_get (a : option nat) (s : obs) : option nat := load_ptr s a.
Definition ob_set (a v : option nat) (s : obs) : obs := store_ptr s a v (ob_unlinked s).
Definition ob_pushes (i : nat) (existing : option nat) (r : pres (option nat)) (s : obs) : obs :=
  match r with
  | RBool true => Obs (ob_head s) (<[i := existing]> (ob_cdr s)) (ob_mtx s) (ob_pushed s ++ [i]) (ob_unlinked s)
  | _ => s
  end.
Definition ob_unlinks (r : nat) (b : pres (option nat)) (s : obs) : obs :=
  match b with
  | RBool true => Obs (ob_head s) (ob_cdr s) (ob_mtx s) (ob_pushed s) ({[r]} ∪ ob_unlinked s)
  | _ => s
  end.
Definition ob_prog (i : nat) (t : othread) : stmt (option nat) (option nat) obs othread :=
  let go pc := OThr (ot_call t) pc in
  let load a k := Ptr (Load a) no_hist (fun r => match r with RPtr v => k v | _ => t end) in
  match ot_call t, ot_pc t with
  | OReg, R_load => load None (fun v => go (R_cas v))
  | OReg, R_cas existing =>
      Ptr (Cas None existing (Some i)) (ob_pushes i existing) (fun r => match r with RBool true => go R_done | _ => go R_load end)
  | OCancel r, C_walk parent =>
      load parent (fun v => match v with
        | None => go C_unlock
        | Some existing => if Nat.eqb existing r then go (C_load parent) else go (C_walk (Some existing)) end)
  | OCancel r, C_load parent => load (Some r) (fun v => go (C_cas parent v))
  | OCancel r, C_cas parent nxt =>
      Ptr (Cas parent (Some r) nxt) (ob_unlinks r) (fun b => match b with RBool true => go C_unlock | _ => go (C_walk None) end)
  | ONotify, N_start => load None (fun v => match v with None => go (N_done []) | Some n => go (N_check n) end)
  | ONotify, N_check n => load (Some n) (fun v => match v with None => go (N_single n) | Some _ => go (N_call n []) end)
  | ONotify, N_next n acc => load (Some n) (fun v => match v with None => go (N_done acc) | Some m => go (N_call m acc) end)
  | _, _ => Other (fun s => ob_step i s t)
  end.
Definition ob_safe (sched : list (action ocall)) := h_exec ob_get ob_set ob_start ob_prog ob_new sched.

(** collect/collect.go: c.check, 82, 88, 91, 98, 123. *)
Global Instance chk_eq_dec : EqDecision chk.
Proof. solve_decision. Defined.
Definition ck_get (a : unit) (s : coll) : chk := cl_check s.
Definition ck_set (a : unit) (v : chk) (s : coll) : coll := cl_set_check s v.
Definition cl_prog (info : nat -> sinfo) (fuel : nat) (i : nat) (t : kthread) : stmt unit chk coll kthread :=
  let go pc := KThr (kt_call t) pc in
  let load k := Ptr (Load tt) no_hist (fun r => match r with RPtr v => k v | _ => t end) in
  let cas n := Ptr (Cas tt CNil (CSpan n)) no_hist (fun r => match r with RBool b => go (M_done b) | _ => t end) in
  let swap again close := Ptr (Swap tt CDone) no_hist (fun r => match r with RPtr v => go (if chk_eqb v CDone then again else close) | _ => t end) in
  match kt_call t, kt_pc t with
  | KStart n matched, M_load => load (fun v => if negb (chk_eqb v CNil) || negb matched then go (M_done false) else go M_cas)
  | KStart n _, M_cas => cas n
  | KForce n, M_cas => cas n
  | KFinish f, CollectModel.F_load =>
      load (fun v => match v with
        | CSpan e => if Nat.eqb (si_trace (info e)) (si_trace (info (fs_span f))) then go (CollectModel.F_lock e) else go (CollectModel.F_done false)
        | _ => go (CollectModel.F_done false) end)
  | KFinish _, F_swap => swap (CollectModel.F_done true) F_close
  | KStop, P_swap => swap P_done P_close
  | _, _ => Other (fun s => cl_step info fuel i s t)
  end.
Definition cl_safe info fuel (sched : list (action kcall)) := h_exec ck_get ck_set cl_start (cl_prog info fuel) cl_new sched.
