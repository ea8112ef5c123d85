(** * The accesses to shared memory that the code makes

    A small language for what matters to the Go memory model: which variables a
    function reads and writes, plainly or with sync/atomic, which locks it holds
    meanwhile, what it allocates, which goroutines it starts.  Values other than
    pointers, and the conditions of branches and loops, are left open: a branch may go
    either way and a loop may run any number of times, so that an execution of the code
    is one of the executions here.  RaceCode.v has the functions of the repository in this
    language.

    A field that holds several pointers (a map, a slice, or a pointer that changes) is one
    variable, and reading it may give any pointer ever stored in it.  Only an atomic load
    gives what was stored last. *)
From Coq Require Export String List Arith.
From stdpp Require Export base list strings.

(** Objects and goroutines are numbers. *)
Notation obj := nat (only parsing).
Notation tid := nat (only parsing).

(** How a lock is held: [MW] by Lock, [MR] by RLock; [MO] is not a lock but the running of
    the function given to sync.Once.Do. *)
Inductive mode := MW | MR | MO.
Global Instance mode_eq_dec : EqDecision mode.
Proof. solve_decision. Defined.

(** Operations of sync/atomic: a load (or a compare-and-swap that fails), a store, or an
    operation that does both (an addition, a swap, a compare-and-swap that succeeds). *)
Inductive acc := ALoad | AStore | ARmw.

(** What one reads in an execution: an object of a class is allocated (which writes all of
    its fields), a field is read or written, an atomic operation is done on it, a lock is
    taken or released, a call of Once.Do returns without running the function, a goroutine
    is started, or something goes from one goroutine to another through a channel (or any
    other means of synchronization) of the user. *)
Inductive ev :=
| ENew (o : obj) (c : string)
| ERd (o : obj) (f : string)
| EWr (o : obj) (f : string)
| EAt (a : acc) (o : obj) (f : string)
| EAcq (m : mode) (o : obj) (l : string)
| ERel (m : mode) (o : obj) (l : string)
| EPass (o : obj) (l : string)
| ESpawn (t : tid)
| ESend (ch : nat)
| ERecv (ch : nat).

(** Statements.  Local variables and fields are named by strings.
    [New x c fs]: x := &c{f: y, ...};  [Rd v f] and [Wr v f ys]: read and write v.f, storing
    the pointers ys;  [Get v f x c]: x := v.f, where x is of class c;  [At a v f ys]:
    operation a of sync/atomic, storing the pointers ys instead of what was there;
    [AtGet v f x c]: x := the pointer in v.f, loaded with sync/atomic;  [Lk m v l], [Un m v l]: v.l.Lock() and so on;  [Once v n b]:
    v.n.Do(b);  [If b1 b2];  [Loop b];  [Go b]: go b;  [User]: a function of the user
    is called. *)
Inductive cmd :=
| New (x c : string) (fs : list (string * string))
| Rd (v f : string)
| Wr (v f : string) (ys : list string)
| Get (v f x c : string)
| At (a : acc) (v f : string) (ys : list string)
| AtGet (v f x c : string)
| Lk (m : mode) (v l : string)
| Un (m : mode) (v l : string)
| Once (v n : string) (b : list cmd)
| If (b1 b2 : list cmd)
| Loop (b : list cmd)
| Go (b : list cmd)
| User.

(** A function: its parameters with their classes, and its body. *)
Record method := { params : list (string * string); body : list cmd }.

(** A library: the package-level variables (name and class), and its functions. *)
Record library := { globals : list (string * string); methods : list method }.

Notation env := (list (string * nat)) (only parsing).

Fixpoint lookup_var (e : env) (x : string) : option obj :=
  match e with
  | [] => None
  | (y, o) :: e' => if String.eqb x y then Some o else lookup_var e' x
  end.

(** The memory: the class of each object, the pointers stored in each field, who holds
    which lock, and which Onces are done. *)
Record heap := {
  objs : list string;
  cont : list (obj * string * obj);
  held : list (tid * mode * obj * string);
  done : list (obj * string);
}.

(** May lock l of o be taken in mode m? *)
Definition free (h : heap) (m : mode) (o : obj) (l : string) : Prop :=
  match m with
  | MW => forall t m', (t, m', o, l) ∉ held h
  | MR => forall t m', m' <> MR -> (t, m', o, l) ∉ held h
  | MO => (forall t m', (t, m', o, l) ∉ held h) /\ (o, l) ∉ done h
  end.

(** The stored pointers of a list of initializers or of a write. *)
Definition stores (e : env) (o : obj) (fs : list (string * string)) : option (list (obj * string * obj)) :=
  mapM (fun fy => o' ← lookup_var e fy.2; Some (o, fy.1, o')) fs.

(** What is stored after an atomic operation. *)
Definition put (a : acc) (o : obj) (f : string) (cs co : list (obj * string * obj)) : list (obj * string * obj) :=
  match a with
  | ALoad => co
  | _ => cs ++ List.filter (fun p => negb (Nat.eqb p.1.1 o && String.eqb p.1.2 f)) co
  end.

Definition release (h : heap) (held' : list (tid * mode * obj * string)) (m : mode) (o : obj)
    (l : string) : heap :=
  {| objs := objs h; cont := cont h; held := held';
     done := match m with MO => (o, l) :: done h | _ => done h end |}.

(** One statement of goroutine t: the event, the new memory, the new local variables, and
    the statements to do before the rest. *)
Inductive cstep (h : heap) (t : tid) (e : env) : cmd -> option ev -> heap -> env -> list cmd -> Prop :=
| c_new x c fs cs :
    stores e (length (objs h)) fs = Some cs ->
    cstep h t e (New x c fs) (Some (ENew (length (objs h)) c))
      {| objs := objs h ++ [c]; cont := cs ++ cont h; held := held h; done := done h |}
      ((x, length (objs h)) :: e) []
| c_rd v f o :
    lookup_var e v = Some o ->
    cstep h t e (Rd v f) (Some (ERd o f)) h e []
| c_wr v f ys o cs :
    lookup_var e v = Some o ->
    stores e o (map (fun y => (f, y)) ys) = Some cs ->
    cstep h t e (Wr v f ys) (Some (EWr o f))
      {| objs := objs h; cont := cs ++ cont h; held := held h; done := done h |} e []
| c_get v f x c o o' :
    lookup_var e v = Some o ->
    (o, f, o') ∈ cont h -> objs h !! o' = Some c ->
    cstep h t e (Get v f x c) (Some (ERd o f)) h ((x, o') :: e) []
| c_at a v f ys o cs :
    lookup_var e v = Some o ->
    stores e o (map (fun y => (f, y)) ys) = Some cs ->
    cstep h t e (At a v f ys) (Some (EAt a o f))
      {| objs := objs h; cont := put a o f cs (cont h); held := held h; done := done h |} e []
| c_atget v f x c o o' :
    lookup_var e v = Some o ->
    (o, f, o') ∈ cont h -> objs h !! o' = Some c ->
    cstep h t e (AtGet v f x c) (Some (EAt ALoad o f)) h ((x, o') :: e) []
| c_lock m v l o :
    lookup_var e v = Some o -> free h m o l ->
    cstep h t e (Lk m v l) (Some (EAcq m o l))
      {| objs := objs h; cont := cont h; held := (t, m, o, l) :: held h; done := done h |} e []
| c_unlock m v l o held' :
    lookup_var e v = Some o -> held h ≡ₚ (t, m, o, l) :: held' ->
    cstep h t e (Un m v l) (Some (ERel m o l)) (release h held' m o l) e []
| c_once_run v n b :
    cstep h t e (Once v n b) None h e (Lk MO v n :: b ++ [Un MO v n])
| c_once_pass v n b o :
    lookup_var e v = Some o -> (o, n) ∈ done h ->
    cstep h t e (Once v n b) (Some (EPass o n)) h e []
| c_if_l b1 b2 : cstep h t e (If b1 b2) None h e b1
| c_if_r b1 b2 : cstep h t e (If b1 b2) None h e b2
| c_loop_end b : cstep h t e (Loop b) None h e []
| c_loop_go b : cstep h t e (Loop b) None h e (b ++ [Loop b])
| c_user : cstep h t e User None h e [].

(** A goroutine is a stack of calls, each with its local variables and what is left to do;
    a call below another one is at a [User].  [known] says which pointers the user's code on a
    goroutine has got, and [mail] which ones the user has put into a channel. *)
Record state := {
  mem : heap;
  thr : list (list (env * list cmd));
  known : list (tid * obj);
  mail : list (nat * obj);
}.

(** The user's code has control: nothing is being called, or a function of the user is. *)
Definition at_user (fs : list (env * list cmd)) : Prop :=
  fs = [] \/ exists e k fs', fs = (e, User :: k) :: fs'.

Definition globals_env (L : library) : env :=
  imap (fun i g => (g.1, i)) (globals L).

(** Arguments for the parameters. *)
Definition args_ok (s : state) (t : tid) (ps : list (string * string)) (os : list obj) : Prop :=
  Forall2 (fun p o => objs (mem s) !! o = Some p.2 /\ (t, o) ∈ known s) ps os.

Definition tells (t : tid) (e : env) : list (tid * obj) := map (fun xo => (t, xo.2)) e.

(** Steps of goroutine t.  A call that is abandoned stands for a panic or for Goexit: its
    deferred calls may release locks afterwards. *)
Inductive step (L : library) (s : state) (t : tid) : option ev -> state -> Prop :=
| s_cmd e c k fs oe h' e' b :
    thr s !! t = Some ((e, c :: k) :: fs) ->
    cstep (mem s) t e c oe h' e' b ->
    step L s t oe
      {| mem := h'; thr := <[t := (e', b ++ k) :: fs]> (thr s);
         known := tells t e' ++ known s; mail := mail s |}
| s_go e b k fs :
    thr s !! t = Some ((e, Go b :: k) :: fs) ->
    step L s t (Some (ESpawn (length (thr s))))
      {| mem := mem s; thr := <[t := (e, k) :: fs]> (thr s) ++ [[(e, b)]];
         known := tells (length (thr s)) e ++ known s; mail := mail s |}
| s_return e fs :
    thr s !! t = Some ((e, []) :: fs) ->
    step L s t None
      {| mem := mem s; thr := <[t := fs]> (thr s); known := known s; mail := mail s |}
| s_call fs m os :
    thr s !! t = Some fs -> at_user fs ->
    m ∈ methods L -> args_ok s t (params m) os ->
    step L s t None
      {| mem := mem s;
         thr := <[t := (zip (params m).*1 os ++ globals_env L, body m) :: fs]> (thr s);
         known := known s; mail := mail s |}
| s_spawn fs :
    thr s !! t = Some fs -> at_user fs ->
    step L s t (Some (ESpawn (length (thr s))))
      {| mem := mem s; thr := thr s ++ [[]];
         known := map (fun o => (length (thr s), o.2)) (List.filter (fun p => Nat.eqb p.1 t) (known s))
                  ++ known s;
         mail := mail s |}
| s_send fs ch o :
    thr s !! t = Some fs -> at_user fs -> (t, o) ∈ known s ->
    step L s t (Some (ESend ch))
      {| mem := mem s; thr := thr s; known := known s; mail := (ch, o) :: mail s |}
| s_recv fs ch o :
    thr s !! t = Some fs -> at_user fs -> (ch, o) ∈ mail s ->
    step L s t (Some (ERecv ch))
      {| mem := mem s; thr := thr s; known := (t, o) :: known s; mail := mail s |}
| s_abandon fs :
    thr s !! t = Some fs ->
    step L s t None
      {| mem := mem s; thr := <[t := []]> (thr s); known := known s; mail := mail s |}
| s_deferred m o l held' :
    thr s !! t = Some [] -> held (mem s) ≡ₚ (t, m, o, l) :: held' ->
    step L s t (Some (ERel m o l))
      {| mem := release (mem s) held' m o l; thr := thr s; known := known s; mail := mail s |}.

(** At first one goroutine has made the package-level variables. *)
Definition init_state (L : library) : state :=
  {| mem := {| objs := (globals L).*2; cont := []; held := []; done := [] |};
     thr := [[]]; known := tells 0 (globals_env L); mail := [] |}.

Definition init_trace (L : library) : list (tid * ev) :=
  imap (fun i g => (0, ENew i g.2)) (globals L).

(** The executions: a state and the events so far, each with its goroutine. *)
Inductive execution (L : library) : list (tid * ev) -> state -> Prop :=
| ex_init : execution L (init_trace L) (init_state L)
| ex_quiet tr s t s' : execution L tr s -> step L s t None s' -> execution L tr s'
| ex_event tr s t e s' :
    execution L tr s -> step L s t (Some e) s' -> execution L (tr ++ [(t, e)]) s'.
