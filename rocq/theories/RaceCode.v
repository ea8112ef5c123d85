(** * What the functions of monkit do to shared memory

    Each function of /repo that touches memory which more than one goroutine may see, as the
    statements of RaceModel.v: which fields it reads and writes, in which order, holding which
    locks.  Values are left out, so that a condition is a choice of either branch and a loop
    is done any number of times; where what the code does next depends on what it got
    from a lock or an atomic operation, each branch starts with its own, so that there is one
    event for each operation.  A call is written by putting in the statements of the
    function called.  A call of a function of the user, or of a method through an interface
    (an observer, a stat source, a transformer, an error-name handler), is [User]: there any
    function of the library may be called, with any object that the goroutine has.  So a function
    that is private in /repo may be called by itself here, which only adds executions.

    Simplifications.  A slice that is only appended to (annotations, handlers, meters, chains)
    is modelled by one object for each element, written when it is allocated; a slice or map
    that is local to a call is an object of the class "local", used by no other goroutine; an
    embedded struct (funcSet, spanBag, a distribution) is one field, or its fields are fields
    of the outer struct; the distribution of a Timer is part of the Timer; a spinLock is a
    lock (C51).  Closures are objects whose fields are what they capture.  Deferred unlocking
    is written at the end.  Channels of the library (done, doneCh) order nothing here. *)
From Verif Require Import RaceModel.

Definition locked (v l : string) (b : list cmd) : list cmd := [Lk MW v l] ++ b ++ [Un MW v l].

(** Operations of sync/atomic, and of the cas_unsafe.go files; the last one is a
    compare-and-swap, which fails or succeeds. *)
Definition Ld (v f : string) : cmd := At ALoad v f [].
Definition St (v f : string) (ys : list string) : cmd := At AStore v f ys.
Definition Rmw (v f : string) (ys : list string) : cmd := At ARmw v f ys.
Definition Cas (v f : string) (ys : list string) : cmd := If [Ld v f] [Rmw v f ys].

(** x := one of the pointers in v.f, whatever its class. *)
Definition get_any (v f x : string) (cs : list string) : list cmd :=
  fold_right (fun c b => [If [Get v f x c] b]) [] cs.

(** All pointers in v.f are put into a new local slice (or map) l. *)
Definition gather (v f x c l : string) : list cmd :=
  [New l "local" []; Loop [Get v f x c; Wr l "items" [x]]].

(** ** Ids and keys *)

(** id.go 45-48 *)
Definition newId : list cmd := [Rd "ids" "inc"; Rmw "ids" "idCounter" []].

(** tags.go 65-95, stats.go 28-43: a new key k, with a copy of the tags of old *)
Definition newKey (k : string) : list cmd := [New k "TagSet" []].
Definition withTags (old k : string) : list cmd := [Rd old "all"; New k "TagSet" []].

(** tags.go 98-108, stats.go 46-62 *)
Definition keyString (k : string) : list cmd := [Rd k "str"; If [Rd k "all"; Wr k "str" []] []; Rd k "str"].

(** ** Registry (registry.go) *)

(** registry.go 164-168, 170-174 *)
Definition orphanedSpan (r s : string) : list cmd :=
  Get r "registryInternal" "ri_o" "registryInternal" ::
  locked "ri_o" "orphanMtx" [Rd "ri_o" "orphans"; Wr "ri_o" "orphans" [s]].
Definition orphanEnd (r : string) : list cmd :=
  Get r "registryInternal" "ri_o" "registryInternal" ::
  locked "ri_o" "orphanMtx" [Rd "ri_o" "orphans"; Wr "ri_o" "orphans" []].

(** registry.go 152-156, 158-162 *)
Definition rootSpanStart (r s : string) : list cmd :=
  Get r "registryInternal" "ri_s" "registryInternal" ::
  locked "ri_s" "spanMtx" [Rd "ri_s" "spans"; Wr "ri_s" "spans" [s]].
Definition rootSpanEnd (r : string) : list cmd :=
  Get r "registryInternal" "ri_s" "registryInternal" ::
  locked "ri_s" "spanMtx" [Rd "ri_s" "spans"; Wr "ri_s" "spans" []].

(** registry.go 99-104; the watcher is the one of lines 115-123 *)
Definition observeTrace (r : string) : list cmd :=
  [Get r "registryInternal" "ri_w" "registryInternal";
   If [Ld "ri_w" "traceWatcher"]
      [AtGet "ri_w" "traceWatcher" "wref" "traceWatcherRef";
       Get "wref" "watcher" "wcell" "watcherCell";
       Loop [Get "wcell" "cb" "wcb" "watcher"; Rd "wcb" "frame"; User;
             Get "wcell" "next" "wcell" "watcherCell"]]].

(** registry.go 106-125, with watcherMtx held *)
Definition updateWatcher (ri : string) : list cmd :=
  [Rd ri "traceWatchers"; New "wcell" "watcherCell" [];
   Loop [Get ri "traceWatchers" "wcb" "watcher";
         New "wcell" "watcherCell" [("cb", "wcb"); ("next", "wcell")]];
   If [St ri "traceWatcher" []]
      [New "wref" "traceWatcherRef" [("watcher", "wcell")]; St ri "traceWatcher" ["wref"]]].

(** registry.go 132-143 *)
Definition observeTraces (r cb : string) : list cmd :=
  [Get r "registryInternal" "ri_t" "registryInternal"] ++
  locked "ri_t" "watcherMtx"
    ([Rd "ri_t" "watcherCounter"; Wr "ri_t" "watcherCounter" [];
      Rd "ri_t" "traceWatchers"; Wr "ri_t" "traceWatchers" [cb]] ++ updateWatcher "ri_t") ++
  [New "unwatch" "unwatch" [("r", r)]].

(** registry.go 144-149 *)
Definition cancelWatcher (u : string) : list cmd :=
  [Get u "r" "r_t" "Registry"; Get "r_t" "registryInternal" "ri_t" "registryInternal"] ++
  locked "ri_t" "watcherMtx"
    ([Rd "ri_t" "traceWatchers"; Wr "ri_t" "traceWatchers" []] ++ updateWatcher "ri_t").

(** registry.go 265-269, func.go 56-58: what spanSorter reads *)
Definition fullName (f : string) : list cmd :=
  [Get f "scope" "fn_scope" "Scope"; Rd "fn_scope" "name"; Get f "key" "fn_key" "TagSet"; Rd "fn_key" "all"].
Definition sortSpans (l : string) : list cmd :=
  [Loop ([Get l "items" "sp" "Span"; Get "sp" "f" "sp_f" "Func"] ++ fullName "sp_f" ++
         [Rd "sp" "id"; Rd l "items"; Wr l "items" []])].

(** registry.go 178-196; b is what is done with each span *)
Definition rootSpans (r : string) (b : list cmd) : list cmd :=
  [Get r "registryInternal" "ri_r" "registryInternal"] ++
  locked "ri_r" "spanMtx" (gather "ri_r" "spans" "sp" "Span" "roots") ++
  locked "ri_r" "orphanMtx" (gather "ri_r" "orphans" "sp" "Span" "orphs") ++
  [Loop [Get "orphs" "items" "sp" "Span"; Wr "roots" "items" ["sp"]]] ++
  sortSpans "roots" ++
  [Loop (Get "roots" "items" "sp" "Span" :: b)].

(** ** Observers (trace.go, ctx.go 332-355) *)

Definition observers : list string := ["observer"; "SpanCollector"; "spanFinder"].

(** ctx.go 339-346 and 348-355, for the observer obs that was got below: it may be the only
    one, or the first one of several *)
Definition callObservers : list cmd :=
  [Loop (get_any "obs" "car" "obs_car" observers ++
         [User; AtGet "obs" "cdr" "obs" "spanObserverTuple"])] ++
  get_any "obs" "car" "obs_car" observers ++ [User; If [] [Ld "obs" "cdr"]].

(** trace.go 56-65: getObserver; then b; then the observer, if any, is called *)
Definition withObserver (t : string) (b : list cmd) : list cmd :=
  [If ([AtGet t "spanObservers" "obs" "spanObserverTuple"; Ld "obs" "cdr"; If [Rd "obs" "car"] []] ++
       b ++ callObservers)
      (Ld t "spanObservers" :: b)].

(** trace.go 69-83; the compare-and-swap fails some times, and then succeeds *)
Definition observeSpans (t car : string) : list cmd :=
  [Loop [If [Ld t "spanObservers"; New "o_ref" "spanObserverTuple" [("car", car)]]
            [AtGet t "spanObservers" "o_old" "spanObserverTuple";
             New "o_ref" "spanObserverTuple" [("car", car); ("cdr", "o_old")]];
         Ld t "spanObservers"];
   If [Ld t "spanObservers"; New "o_ref" "spanObserverTuple" [("car", car)]]
      [AtGet t "spanObservers" "o_old" "spanObserverTuple";
       New "o_ref" "spanObserverTuple" [("car", car); ("cdr", "o_old")]];
   Rmw t "spanObservers" ["o_ref"];
   New "unobserve" "unobserve" [("t", t); ("ref", "o_ref")]].

(** trace.go 85-106: nothing is there, or the first one is taken out, or a later one is
    (or the end is reached) *)
Definition removeObserver (u : string) : list cmd :=
  [Get u "t" "u_t" "Trace"; Get u "ref" "u_ref" "spanObserverTuple"] ++
  locked "u_t" "mtx"
    [Loop [If [Ld "u_t" "spanObservers"]
              [AtGet "u_t" "spanObservers" "u_x" "spanObserverTuple";
               If [If [Ld "u_x" "cdr"; Cas "u_t" "spanObservers" []]
                      [AtGet "u_x" "cdr" "u_n" "spanObserverTuple"; Cas "u_t" "spanObservers" ["u_n"]]]
                  [Loop [AtGet "u_x" "cdr" "u_x" "spanObserverTuple"];
                   If [Ld "u_x" "cdr"]
                      [AtGet "u_x" "cdr" "u_y" "spanObserverTuple";
                       If [Ld "u_y" "cdr"; Cas "u_x" "cdr" []]
                          [AtGet "u_y" "cdr" "u_n" "spanObserverTuple"; Cas "u_x" "cdr" ["u_n"]]]]]]].

(** ** Funcs (func.go, funcset.go, funcstats.go) *)

(** funcset.go 41-57 *)
Definition funcSetAdd (f parent : string) : list cmd :=
  [Ld f "first";
   If []
      [If [Rmw f "first" [parent]]
          (Ld f "first" :: locked f "Mutex" [Rd f "rest"; Wr f "rest" [parent]])]].

(** funcstats.go 76-86 *)
Definition funcStart (f parent : string) : list cmd :=
  funcSetAdd f parent ++
  [Rmw f "current" []; Loop [Ld f "highwater"; Ld f "highwater"]; Ld f "highwater"; If [] [Rmw f "highwater" []]].

(** error_names.go 49-97 *)
Definition getErrorName : list cmd :=
  [If [Ld "errorNameHandlers" "value"]
      [AtGet "errorNameHandlers" "value" "eh" "handlerCell";
       Loop [Get "eh" "fn" "eh_fn" "userfn"; User; Get "eh" "next" "eh" "handlerCell"];
       If [Get "eh" "fn" "eh_fn" "userfn"; User] []];
   User].

(** durdist.go 64-98 as part of an object whose field d is the distribution *)
Definition insert (v d : string) : list cmd := [Rd v d; Wr v d []].

(** funcstats.go 88-105 *)
Definition funcEnd (f : string) : list cmd :=
  [Rmw f "current" []] ++
  locked f "Mutex"
    [If ([Rd f "panics"; Wr f "panics" []] ++ insert f "failureTimes")
        [If (insert f "successTimes")
            (insert f "failureTimes" ++ getErrorName ++ [Rd f "errors"; Wr f "errors" []])]].

(** funcset.go 60-78 *)
Definition funcParents (f : string) : list cmd :=
  locked f "Mutex" (gather f "rest" "par" "Func" "uniq") ++
  [If [Ld f "first"] [AtGet f "first" "par" "Func"; Wr "uniq" "items" ["par"]];
   Loop [Get "uniq" "items" "par" "Func"; User]].

(** durdist.go 158-162 and 169-185: the copy st is used by this goroutine only *)
Definition copyDist (v d st : string) : list cmd := [Rd v d; New st "local" []].
Definition distStats (v st : string) : list cmd :=
  [Get v "key" "d_key" "TagSet";
   Loop [Rd st "items"; Wr st "items" []; User]].

(** funcstats.go 148-175 *)
Definition funcStats (f : string) : list cmd :=
  [Get f "key" "f_key" "TagSet"; Ld f "current"; User; Ld f "highwater"; User] ++
  locked f "Mutex"
    ([Rd f "panics"; New "errs" "local" []; Loop [Rd f "errors"; Wr "errs" "items" []]] ++
     copyDist f "successTimes" "st" ++ copyDist f "failureTimes" "ft") ++
  [Rd "st" "items"; User; Loop ([Rd "errs" "items"] ++ withTags "f_key" "f_key2" ++ [User]); User] ++
  distStats f "st" ++ distStats f "ft".

(** ** Spans (span.go, ctx.go) *)

(** span.go 54-61 *)
Definition orphan (s : string) : list cmd :=
  locked s "mtx"
    [Rd s "done"; Rd s "orphaned";
     If ([Wr s "orphaned" []; Get s "f" "or_f" "Func"; Get "or_f" "scope" "or_s" "Scope";
          Get "or_s" "r" "or_r" "Registry"] ++ orphanedSpan "or_r" s)
        []].

(** span.go 38-46, spanbag.go 26-35 *)
Definition addChild (s child : string) : list cmd :=
  locked s "mtx" [Rd s "children"; Wr s "children" [child]; Rd s "done"] ++
  [If (orphan child) []].

(** span.go 48-52, spanbag.go 37-49 *)
Definition removeChild (s : string) : list cmd :=
  locked s "mtx" [Rd s "children"; Wr s "children" []].

(** ctx.go 85-113 for a span with a parent, and for one without *)
Definition startChild (f trace parent : string) : list cmd :=
  withObserver trace
    (newId ++
     [New "s" "Span" [("f", f); ("trace", trace); ("parent", parent); ("Context", parent)];
      Rmw trace "spanCount" []; Get parent "f" "p_f" "Func"] ++
     funcStart f "p_f" ++ addChild parent "s") ++
  [New "exit" "exit" [("s", "s"); ("trace", trace)]].
Definition startRoot (f trace : string) : list cmd :=
  withObserver trace
    (newId ++
     [New "s" "Span" [("f", f); ("trace", trace)]; Rmw trace "spanCount" []] ++
     funcStart f "nilFunc" ++
     [Get f "scope" "n_s" "Scope"; Get "n_s" "r" "n_r" "Registry"] ++
     rootSpanStart "n_r" "s") ++
  [New "exit" "exit" [("s", "s"); ("trace", trace)]].

(** ctx.go 74-77, trace.go 52-54 *)
Definition freshTrace (f : string) : list cmd :=
  newId ++ [New "trace" "Trace" []; Get f "scope" "t_s" "Scope"; Get "t_s" "r" "t_r" "Registry"] ++
  observeTrace "t_r".

(** ctx.go 113-157 *)
Definition exitSpan (x : string) : list cmd :=
  [Get x "s" "s" "Span"; Rd "s" "start"; Get "s" "f" "f" "Func"] ++
  funcEnd "f" ++
  locked "s" "mtx"
    ([Wr "s" "done" []; Rd "s" "orphaned"; Rd "s" "children"] ++ gather "s" "children" "child" "Span" "kids") ++
  [Loop (Get "kids" "items" "child" "Span" :: orphan "child");
   Get "f" "scope" "x_s" "Scope"; Get "x_s" "r" "x_r" "Registry"; Rd "s" "parent";
   If (Get "s" "parent" "parent" "Span" :: removeChild "parent" ++ [If (orphanEnd "x_r") []])
      (rootSpanEnd "x_r");
   Get x "trace" "trace" "Trace"; Rmw "trace" "spanCount" []] ++
  withObserver "trace" [].

(** ** Scopes (scope.go) *)

(** All classes of stat sources. *)
Definition sources : list string :=
  ["Func"; "FuncStats"; "Counter"; "Meter"; "DiffMeter"; "IntVal"; "FloatVal"; "BoolVal"; "StructVal";
   "DurationVal"; "Timer"; "gauge"; "userfn"; "Registry"; "Scope"; "Process"].

(** scope.go 46-68: make is the constructor, which binds x, of class c *)
Definition newSource (s x c : string) (make : list cmd) : list cmd :=
  [If [Lk MR s "mtx"; Get s "sources" x c; Un MR s "mtx"]
      [Lk MR s "mtx"; Rd s "sources"; Un MR s "mtx"; Lk MW s "mtx";
       If [Get s "sources" x c; Un MW s "mtx"]
          (Rd s "sources" :: make ++ [Wr s "sources" [x]; Un MW s "mtx"])]].

(** func.go 42-50, scope.go 95-105 *)
Definition funcNamed (s : string) : list cmd :=
  newSource s "f" "Func" (newKey "nk" ++ newId ++ [New "f" "Func" [("scope", s); ("key", "nk")]]).

(** meter.go 199-210 *)
Definition tickerRun : list cmd :=
  [Loop (locked "defaultTicker" "mtx" (gather "defaultTicker" "meters" "mc" "meterCell" "meters") ++
         [Loop ([Get "meters" "items" "mc" "meterCell"; Get "mc" "m" "tm" "Meter"] ++
                locked "tm" "mtx" [Rd "tm" "slices"; Rd "tm" "total"; If [Wr "tm" "total" []; Wr "tm" "slices" []] []])])].

(** meter.go 60-68, 189-197 *)
Definition newMeter (k : string) : list cmd :=
  [New "x" "Meter" [("key", k)]] ++
  locked "defaultTicker" "mtx"
    [Rd "defaultTicker" "started"; If [Wr "defaultTicker" "started" []; Go tickerRun] [];
     New "mcell" "meterCell" [("m", "x")]; Rd "defaultTicker" "meters"; Wr "defaultTicker" "meters" ["mcell"]].

(** The other constructors: counter.go 41-43, val.go 39-43, 86-90, 136-138, 179-181, 219-223,
    timer.go 45-47 *)
Definition newVal (c k : string) : list cmd := [New "x" c [("key", k)]].

(** ** Functions that the user calls *)

Definition fn (ps : list (string * string)) (b : list cmd) : method := {| params := ps; body := b |}.

(** What the user makes: functions, observers, transformers, watchers. *)
Definition users : list method :=
  map (fun c => fn [] [New "x" c []]) ["userfn"; "observer"; "transformer"; "watcher"].

(** span.go *)
Definition spans : list method := [
  fn [("s", "Span"); ("child", "Span")] (addChild "s" "child");
  fn [("s", "Span")] (removeChild "s");
  fn [("s", "Span")] (orphan "s");
  (* 64-71 *) fn [("s", "Span")] [Rd "s" "start"];
  (* 74-85 *) fn [("s", "Span")] [Rd "s" "Context"; User];
  (* 88-103 *) fn [("s", "Span")]
    (locked "s" "mtx" (gather "s" "children" "sp" "Span" "kids") ++ sortSpans "kids" ++
     [Loop [Get "kids" "items" "sp" "Span"; User]]);
  (* 107-124 *) fn [("s", "Span")] [Rd "s" "args"; Loop [User]];
  (* 153-163 *) fn [("s", "Span")] [Rd "s" "id"; Rd "s" "parentId"; If [Get "s" "parent" "p" "Span"; Rd "p" "id"] []];
  (* 166 *) fn [("s", "Span")] [Get "s" "f" "f" "Func"];
  (* 169 *) fn [("s", "Span")] [Get "s" "trace" "t" "Trace"];
  (* 173-178 *) fn [("s", "Span")]
    (locked "s" "mtx" (Rd "s" "annotations" :: gather "s" "annotations" "a" "Annotation" "as") ++
     [Loop [Get "as" "items" "a" "Annotation"; Rd "a" "Name"; Rd "a" "Value"]]);
  (* 181-185 *) fn [("s", "Span")]
    (locked "s" "mtx" [Rd "s" "annotations"; New "a" "Annotation" []; Wr "s" "annotations" ["a"]]);
  (* 188-193 *) fn [("s", "Span")] (locked "s" "mtx" [Rd "s" "orphaned"])
].

(** ctx.go: 59-158 and 239-281 (Func.Task, RemoteTrace, ResetTrace) with a span in the context
    or without, the function that a Task returns, and 206-224 (Scope.Task) *)
Definition task (f : string) : list cmd :=
  [Rd "unparented" "value"; Rd "taskSecret" "value";
   If (freshTrace f ++ startRoot f "trace") []].
Definition contexts : list method := [
  fn [("f", "Func")] (task "f");
  fn [("f", "Func"); ("parent", "Span")]
    ([Get "parent" "trace" "trace" "Trace"] ++ startChild "f" "trace" "parent");
  fn [("f", "Func"); ("trace", "Trace")]
    ([Get "f" "scope" "t_s" "Scope"; Get "t_s" "r" "t_r" "Registry"] ++ observeTrace "t_r" ++ startRoot "f" "trace");
  fn [("f", "Func"); ("sp", "Span")] ([Get "sp" "trace" "trace" "Trace"] ++ startRoot "f" "trace");
  fn [("x", "exit")] (exitSpan "x");
  fn [("sc", "Scope")] [New "task" "Task" [("s", "sc")]];
  fn [("task", "Task")]
    ([Once "task" "initOnce" (Get "task" "s" "sc" "Scope" :: funcNamed "sc" ++ [Wr "task" "f" ["f"]]);
      Get "task" "f" "tf" "Func"] ++ task "tf");
  fn [("task", "Task"); ("parent", "Span")]
    ([Once "task" "initOnce" (Get "task" "s" "sc" "Scope" :: funcNamed "sc" ++ [Wr "task" "f" ["f"]]);
      Get "task" "f" "tf" "Func"; Get "parent" "trace" "trace" "Trace"] ++ startChild "tf" "trace" "parent");
  (* 50-57, 73-79 of span.go *) fn [("s", "Span")] [Loop [Get "s" "Context" "s" "Span"]]
].

(** trace.go *)
Definition traces : list method :=
  [fn [] (newId ++ [New "t" "Trace" []])] ++
  map (fun c => fn [("t", "Trace"); ("o", c)] (observeSpans "t" "o")) observers ++ [
  fn [("u", "unobserve")] (removeObserver "u");
  (* 109 *) fn [("t", "Trace")] [Rd "t" "id"];
  (* 112-120 *) fn [("t", "Trace")] (locked "t" "mtx" [New "m" "local" []; Loop [Rd "t" "vals"; Wr "m" "items" []]]);
  (* 123-130 *) fn [("t", "Trace")] (locked "t" "mtx" [Rd "t" "vals"]);
  (* 133-141 *) fn [("t", "Trace")] (locked "t" "mtx" [Rd "t" "vals"; Wr "t" "vals" []]);
  (* 143-147 *) fn [("t", "Trace")] [Ld "t" "spanCount"]
].

(** funcstats.go and func.go; both for a FuncStats of its own and for the one in a Func *)
Definition funcs_of (c : string) : list method := [
  (* 65-74 *) fn [("f", c)]
    ([St "f" "current" []; St "f" "highwater" []] ++
     locked "f" "Mutex" [Rd "f" "errors"; Wr "f" "errors" []; Wr "f" "panics" []; Wr "f" "successTimes" []; Wr "f" "failureTimes" []]);
  (* 76-86 *) fn [("f", c)] (funcStart "f" "nilFunc");
  fn [("f", c); ("p", "Func")] (funcStart "f" "p");
  (* 88-105, 201-217 *) fn [("f", c)] (funcEnd "f");
  (* 109 *) fn [("f", c)] [Ld "f" "current"];
  (* 112 *) fn [("f", c)] [Ld "f" "highwater"];
  (* 115-120 *) fn [("f", c)] (locked "f" "Mutex" [Rd "f" "successTimes"]);
  (* 123-128 *) fn [("f", c)] (locked "f" "Mutex" [Rd "f" "panics"]);
  (* 133-141 *) fn [("f", c)] (locked "f" "Mutex" [New "m" "local" []; Loop [Rd "f" "errors"; Wr "m" "items" []]]);
  (* 143-145 *) fn [("f", c)] (funcParents "f");
  (* 148-175 *) fn [("f", c)] (funcStats "f");
  (* 178-183 *) fn [("f", c)] (locked "f" "Mutex" (copyDist "f" "successTimes" "st"));
  (* 186-191 *) fn [("f", c)] (locked "f" "Mutex" (copyDist "f" "failureTimes" "ft"))
].
Definition funcs : list method :=
  funcs_of "Func" ++ funcs_of "FuncStats" ++ [
  (* funcstats.go 58-62 *) fn [("k", "TagSet")] [New "f" "FuncStats" [("key", "k")]];
  (* func.go 53-58 *) fn [("f", "Func")] (fullName "f");
  (* func.go 61 *) fn [("f", "Func")] [Rd "f" "id"];
  (* func.go 64 *) fn [("f", "Func")] [Get "f" "scope" "s" "Scope"]
].

(** registry.go *)
Definition registries : list method := [
  (* 58-65 *) fn [] [New "ri" "registryInternal" []; New "r" "Registry" [("registryInternal", "ri")]];
  (* 69-74 *) fn [("r", "Registry"); ("t", "transformer")]
    [Get "r" "registryInternal" "ri" "registryInternal"; New "tc" "transformerCell" [("t", "t")];
     If [Get "r" "transformers" "old" "transformerCell"; New "tc" "transformerCell" [("t", "t"); ("next", "old")]] [];
     New "r2" "Registry" [("registryInternal", "ri"); ("transformers", "tc")]];
  (* 87-97 *) fn [("r", "Registry")]
    (Get "r" "registryInternal" "ri" "registryInternal" ::
     locked "ri" "scopeMtx"
       [Rd "ri" "scopes"; If [Get "ri" "scopes" "s" "Scope"] [New "s" "Scope" [("r", "r")]; Wr "ri" "scopes" ["s"]]]);
  fn [("r", "Registry"); ("t", "Trace")] (observeTrace "r");
  fn [("r", "Registry"); ("w", "watcher")] (observeTraces "r" "w");
  fn [("u", "unwatch")] (cancelWatcher "u");
  (* 178-208 *) fn [("r", "Registry")] (rootSpans "r" [User]);
  (* 211-227 *) fn [("r", "Registry")]
    (Get "r" "registryInternal" "ri" "registryInternal" ::
     locked "ri" "scopeMtx" (gather "ri" "scopes" "s" "Scope" "all") ++
     [Loop [Get "all" "items" "s" "Scope"; Rd "s" "name"; Rd "all" "items"; Wr "all" "items" []];
      Loop [Get "all" "items" "s" "Scope"; User]]);
  (* 230-235: the transformers wrap the callback *) fn [("r", "Registry")]
    [If [Get "r" "transformers" "tc" "transformerCell";
         Loop [Get "tc" "t" "tr" "transformer"; User; Get "tc" "next" "tc" "transformerCell"]] [];
     User]
].

(** scope.go *)
Definition scope_val (c : string) : list method := [
  fn [("s", "Scope")] (newSource "s" "x" c (newKey "nk" ++ newVal c "nk"));
  fn [("k", "TagSet")] (newVal c "k")
].
Definition scopes : list method :=
  [fn [("s", "Scope")] (funcNamed "s");
   (* 123-139 *) fn [("s", "Scope")] (newSource "s" "x" "Meter" (newKey "nk" ++ newMeter "nk") ++
     locked "x" "mtx" [Rd "x" "slices"; Wr "x" "slices" []]);
   fn [("k", "TagSet")] (newMeter "k");
   (* 143-151 *) fn [("s", "Scope"); ("m1", "Meter"); ("m2", "Meter")]
     (newSource "s" "x" "DiffMeter"
        (newKey "nk" ++ [New "x" "DiffMeter" [("key", "nk"); ("meter1", "m1"); ("meter2", "m2")]]))] ++
  (* 154-260 *) flat_map scope_val ["IntVal"; "FloatVal"; "BoolVal"; "StructVal"; "DurationVal"; "Timer"; "Counter"] ++ [
   (* 108-120 *) fn [("s", "Scope")]
     (locked "s" "mtx" (gather "s" "sources" "f" "Func" "all") ++ [Loop [Get "all" "items" "f" "Func"; User]]);
   (* 264-283 *) fn [("s", "Scope"); ("cb", "userfn")]
     (locked "s" "mtx" [Rd "s" "sources"; New "g" "gauge" [("cb", "cb")]; Wr "s" "sources" ["g"]]);
   (* 306-322 *) fn [("s", "Scope")]
     (locked "s" "mtx"
        ([New "all" "local" []] ++
         map (fun c => Loop [Get "s" "sources" "src" c; Wr "all" "items" ["src"]]) sources) ++
      map (fun c => Loop [Get "all" "items" "src" c; User]) sources ++
      locked "s" "mtx"
        ([New "all" "local" []] ++
         map (fun c => Loop [Get "s" "chains" "src" c; Wr "all" "items" ["src"]]) sources) ++
      map (fun c => Loop [Get "all" "items" "src" c; User]) sources);
   (* 325 *) fn [("s", "Scope")] [Rd "s" "name"]] ++
  (* 287-293 *) map (fun c => fn [("s", "Scope"); ("src", c)]
     (locked "s" "mtx" [Rd "s" "chains"; Wr "s" "chains" ["src"]])) sources.

(** The callback of scope.go 307-309, for a key that a source hands over: the new key k is
    passed to the user, or to the callbacks of DeltaTransformers (transform.go 62-79) and of
    Collect or StatsText (stats.go 79-81, present/stats.go), on the same goroutine. *)
Definition callbacks : list method := [
  fn [("key", "TagSet"); ("s", "Scope")] (Rd "s" "name" :: withTags "key" "k" ++ [User]);
  fn [("key", "TagSet"); ("s", "Scope")] (Rd "s" "name" :: withTags "key" "k" ++ keyString "k" ++ [User]);
  fn [] [New "dt" "DeltaTransformer" []];
  fn [("key", "TagSet"); ("s", "Scope"); ("dt", "DeltaTransformer")]
    (Rd "s" "name" :: withTags "key" "k" ++
     [If (keyString "k" ++ locked "dt" "mtx" [Rd "dt" "lastTotals"; Wr "dt" "lastTotals" []]) []] ++
     keyString "k" ++ [User]);
  (* the methods of keys that leave the cached string alone: tags.go 40-95 *)
  fn [] (newKey "k");
  fn [("key", "TagSet")] (withTags "key" "k");
  fn [("key", "TagSet")] [Rd "key" "all"]
].

(** counter.go 45-128 *)
Definition counters : list method := [
  (* 45-65 *) fn [("c", "Counter")] (locked "c" "mtx"
    [Rd "c" "val"; Wr "c" "val" []; Rd "c" "nonempty"; Rd "c" "low"; If [Wr "c" "low" []] [];
     Rd "c" "high"; If [Wr "c" "high" []] []; Wr "c" "nonempty" []]);
  (* 68-79 *) fn [("c", "Counter")] (locked "c" "mtx"
    [Rd "c" "val"; Wr "c" "val" []; Rd "c" "nonempty"; Rd "c" "low"; If [Wr "c" "low" []] [];
     Rd "c" "high"; If [Wr "c" "high" []] []; Wr "c" "nonempty" []; Rd "c" "val"]);
  (* 82-87 *) fn [("c", "Counter")] (locked "c" "mtx" [Rd "c" "high"]);
  (* 90-95 *) fn [("c", "Counter")] (locked "c" "mtx" [Rd "c" "low"]);
  (* 98-103 *) fn [("c", "Counter")] (locked "c" "mtx" [Rd "c" "val"]);
  (* 107-113 *) fn [("c", "Counter")] (locked "c" "mtx"
    [Rd "c" "val"; Rd "c" "low"; Rd "c" "high"; Wr "c" "val" []; Wr "c" "low" []; Wr "c" "high" []; Wr "c" "nonempty" []]);
  (* 116-128 *) fn [("c", "Counter")] (locked "c" "mtx" [Rd "c" "val"; Rd "c" "low"; Rd "c" "high"; Rd "c" "nonempty"] ++
    [Get "c" "key" "k" "TagSet"; User; User; User])
].

(** meter.go 73-181 *)
Definition meterStats (m : string) : list cmd := locked m "mtx" [Rd m "slices"; Rd m "total"].
Definition meters : list method := [
  (* 73-82 *) fn [("e", "Meter")] (locked "e" "mtx" [Wr "e" "total" []; Rd "e" "slices"; Wr "e" "slices" []]);
  (* 85-89 *) fn [("e", "Meter")] (locked "e" "mtx" [Wr "e" "total" []]);
  (* 92-103 *) fn [("e", "Meter")] (locked "e" "mtx" [Rd "e" "slices"; Wr "e" "slices" []]);
  (* 105-115 *) fn [("e", "Meter")] (locked "e" "mtx" [Rd "e" "slices"; If [Rd "e" "total"; Wr "e" "total" []; Wr "e" "slices" []] []]);
  (* 117-146 *) fn [("e", "Meter")] (meterStats "e");
  (* 149-153 *) fn [("e", "Meter")] (meterStats "e" ++ [Get "e" "key" "k" "TagSet"; User; User]);
  (* 170-172 *) fn [("k", "TagSet"); ("m1", "Meter"); ("m2", "Meter")]
    [New "x" "DiffMeter" [("key", "k"); ("meter1", "m1"); ("meter2", "m2")]];
  (* 175-181 *) fn [("m", "DiffMeter")]
    (Get "m" "meter1" "m1" "Meter" :: meterStats "m1" ++ Get "m" "meter2" "m2" "Meter" :: meterStats "m2" ++
     [Get "m" "key" "k" "TagSet"; User; User])
].

(** val.go and timer.go *)
Definition dist_val (c : string) : list method := [
  (* 46-50, 93-97, 226-230 *) fn [("v", c)] (locked "v" "mtx" (insert "v" "dist"));
  (* 53-59, 100-106, 233-239 *) fn [("v", c)] (locked "v" "mtx" (copyDist "v" "dist" "vd") ++ distStats "v" "vd");
  (* 63-68, 110-115, 243-248: Query may sort *) fn [("v", c)] (locked "v" "mtx" [Rd "v" "dist"; If [Wr "v" "dist" []] []; Rd "v" "dist"])
].
Definition vals : list method :=
  flat_map dist_val ["IntVal"; "FloatVal"; "DurationVal"] ++ [
  (* val.go 141-149 *) fn [("v", "BoolVal")] [If [Rmw "v" "trues" []] [Rmw "v" "falses" []]; St "v" "recent" []];
  (* val.go 152-160 *) fn [("v", "BoolVal")]
    [Ld "v" "trues"; Ld "v" "falses"; Ld "v" "recent"; Get "v" "key" "k" "TagSet"; User; User; User; User];
  (* val.go 186-190 *) fn [("v", "StructVal"); ("val", "userfn")] (locked "v" "mtx" [Wr "v" "recent" ["val"]]);
  (* val.go 193-201 *) fn [("v", "StructVal")]
    (locked "v" "mtx" [Rd "v" "recent"] ++ [Get "v" "key" "k" "TagSet"; Loop [User]]);
  (* timer.go 50-54 *) fn [("t", "Timer")] [New "r" "RunningTimer" [("t", "t")]];
  (* timer.go 64-66 *) fn [("r", "RunningTimer")] [Rd "r" "start"];
  (* timer.go 70-79 *) fn [("r", "RunningTimer")]
    ([Rd "r" "start"; Get "r" "t" "t" "Timer"] ++
     locked "t" "mtx" [Rd "r" "stopped"; If (insert "t" "times" ++ [Wr "r" "stopped" []]) []]);
  (* timer.go 82-87 *) fn [("t", "Timer")] (locked "t" "mtx" (copyDist "t" "times" "rv"));
  (* timer.go 90-96 *) fn [("t", "Timer")] (locked "t" "mtx" (copyDist "t" "times" "rv") ++ distStats "t" "rv")
].

(** error_names.go 38-45 *)
Definition error_names : list method := [
  fn [("f", "userfn")] (locked "errorNameHandlers" "write_mu"
    [If [Ld "errorNameHandlers" "value"; New "cell" "handlerCell" [("fn", "f")]]
        [AtGet "errorNameHandlers" "value" "old" "handlerCell"; New "cell" "handlerCell" [("fn", "f"); ("next", "old")]];
     St "errorNameHandlers" "value" ["cell"]]);
  fn [] getErrorName;
  (* id.go 45-48 *) fn [] newId
].

(** collect/collect.go *)
Definition stopCollector (c : string) : list cmd := [Rmw c "check" ["donePointer"]; If [Rd c "done"] []].
Definition collectorSpans (c : string) : list cmd :=
  [New "found" "local" []] ++
  locked c "mtx"
    [Rd c "root";
     If [Get c "root" "fs" "FinishedSpan"; Wr "found" "items" ["fs"];
         Loop [Get "fs" "Span" "sp" "Span"; Rd "sp" "id"; Rd c "spansByParent";
               Get c "spansByParent" "fs" "FinishedSpan"; Wr "found" "items" ["fs"]]] []].
Definition collectors : list method := [
  (* 59-69 *) fn [("m", "userfn")] [New "c" "SpanCollector" [("matcher", "m")]];
  (* 73-75 *) fn [("c", "SpanCollector")] [Rd "c" "done"];
  (* 81-83 *) fn [("c", "SpanCollector"); ("s", "Span")] [Cas "c" "check" ["s"]];
  (* 87-92 *) fn [("c", "SpanCollector"); ("s", "Span")]
    [Ld "c" "check"; If [] [Rd "c" "matcher"; User; If [] [Cas "c" "check" ["s"]]]];
  (* 96-119 *) fn [("c", "SpanCollector"); ("s", "Span")]
    [If [Ld "c" "check"]
       [AtGet "c" "check" "ex" "Span"; Rd "ex" "trace"; Rd "s" "trace";
        New "fs" "FinishedSpan" [("Span", "s")]; Lk MW "c" "mtx"; Rd "c" "root";
        If [Un MW "c" "mtx"]
           [If ([Wr "c" "root" ["fs"]; Un MW "c" "mtx"] ++ stopCollector "c")
               [Rd "s" "parentId"; If [Get "s" "parent" "p" "Span"; Rd "p" "id"] [];
                Rd "c" "spansByParent"; Wr "c" "spansByParent" ["fs"]; Un MW "c" "mtx"]]]];
  (* 122-126 *) fn [("c", "SpanCollector")] (stopCollector "c");
  (* 130-144 *) fn [("c", "SpanCollector")] (collectorSpans "c");
  (* what can be read of a span that was collected *)
  fn [("fs", "FinishedSpan")] [Get "fs" "Span" "s" "Span"; Rd "fs" "Err"; Rd "fs" "Panicked"; Rd "fs" "Finish"; Rd "s" "start"];
  (* 164-169 *) fn [("m", "userfn")] [New "f" "spanFinder" [("matcher", "m")]];
  (* 171-178 *) fn [("m", "spanFinder"); ("s", "Span")]
    [Ld "m" "doneFlag"; If [] [Rd "m" "matcher"; User; If [Rmw "m" "doneFlag" []; If [Rd "m" "doneCh"] []] []]];
  (* 184-188 *) fn [("m", "spanFinder")] [Rmw "m" "doneFlag" []; If [Rd "m" "doneCh"] []];
  (* 190-192 *) fn [("m", "spanFinder")] [Rd "m" "doneCh"]
].

(** collect/trace.go 25-62: fr is the frame whose variables the closures share *)
Definition watchTrace (fr t coll : string) : list cmd :=
  locked fr "mtx"
    [Rd fr "existingTraces"; Rd fr "stopping";
     If ([Wr fr "existingTraces" [t]] ++ observeSpans t coll ++ [Rd fr "cancelers"; Wr fr "cancelers" ["unobserve"]]) []].
Definition observeAll (r coll : string) : list cmd :=
  [New "fr" "frame" [("collector", coll)]; New "w" "watcher" [("frame", "fr")]] ++
  observeTraces r "w" ++
  rootSpans r (Get "sp" "trace" "sp_t" "Trace" :: watchTrace "fr" "sp_t" coll) ++
  [New "cancelAll" "cancelAll" [("frame", "fr"); ("main", "unwatch")]].
Definition cancelAll (x : string) : list cmd :=
  [Get x "main" "unw" "unwatch"] ++ cancelWatcher "unw" ++
  [Get x "frame" "ca_fr" "frame"] ++
  locked "ca_fr" "mtx" [Wr "ca_fr" "stopping" [];
    Loop (Get "ca_fr" "cancelers" "uno" "unobserve" :: removeObserver "uno")].

Definition watching (c : string) : list method := [
  fn [("r", "Registry"); ("coll", c)] (observeAll "r" "coll");
  fn [("fr", "frame"); ("t", "Trace")] (Get "fr" "collector" "coll" c :: watchTrace "fr" "t" "coll")
].

(** collect/ctx.go: WatchForSpans 32-46, CollectSpans 52-70, FindSpan 75-90 *)
Definition collecting : list method :=
  flat_map watching observers ++ [
  fn [("w", "watcher")] [Get "w" "frame" "fr" "frame"];
  fn [("x", "cancelAll")] (cancelAll "x");
  fn [("r", "Registry"); ("m", "userfn")]
    ([New "c" "SpanCollector" [("matcher", "m")]] ++ observeAll "r" "c" ++ [Rd "c" "done"; User] ++
     [If (collectorSpans "c") []] ++ cancelAll "cancelAll" ++ stopCollector "c");
  fn [("sp", "Span"); ("m", "userfn")]
    ([New "c" "SpanCollector" [("matcher", "m")]; Get "sp" "trace" "trace" "Trace"] ++ observeSpans "trace" "c" ++
     [Get "sp" "f" "g" "Func"; Get "g" "key" "gk" "TagSet"; Rd "gk" "all"; Get "g" "scope" "sc" "Scope"] ++
     funcNamed "sc" ++ startChild "f" "trace" "sp" ++ [Cas "c" "check" ["s"]; User] ++
     exitSpan "exit" ++ collectorSpans "c" ++ stopCollector "c");
  fn [("r", "Registry"); ("m", "userfn")]
    ([New "c" "spanFinder" [("matcher", "m")]] ++ observeAll "r" "c" ++ [Rd "c" "doneCh"; User] ++
     cancelAll "cancelAll" ++ [Rmw "c" "doneFlag" []; If [Rd "c" "doneCh"] []])
].

(** present/utils.go 37-87 (keepAlive), present/path.go 233-264 (the remote trace report),
    environment/process.go 56-61 (processCRC; the source is made at 39-48) *)
Definition reports : list method := [
  fn [("ping", "userfn")]
    [New "ka" "keepAlive" [("ping", "ping")];
     Go [Loop [Lk MW "ka" "mu"; Rd "ka" "stopped"; Rd "ka" "pingErr";
               If [] [Rd "ka" "ping"; User; If [Wr "ka" "pingErr" []] []]; Un MW "ka" "mu"]]];
  fn [("ka", "keepAlive")]
    (Once "ka" "once" [Rd "ka" "ping"] :: locked "ka" "mu" [Wr "ka" "stopped" []; Rd "ka" "pingErr"]);
  fn [] [New "rt" "remote" []];
  fn [("rt", "remote"); ("s", "Span")]
    (locked "rt" "traceMtx" [Rd "rt" "trace"; If
      ([Get "s" "trace" "t" "Trace"; Wr "rt" "trace" ["t"]] ++ locked "t" "mtx" [Rd "t" "vals"; Wr "t" "vals" []] ++
       locked "t" "mtx" [Rd "t" "vals"] ++ [User]) []]);
  fn [("rt", "remote")] (locked "rt" "traceMtx" [Rd "rt" "trace"; If [Get "rt" "trace" "t" "Trace"; Rd "t" "id"] []]);
  fn [] [New "x" "Process" []];
  fn [("x", "Process")]
    (newKey "k" ++ [User; Once "crcCache" "once" [Wr "crcCache" "crc" []; Wr "crcCache" "err" []];
     Rd "crcCache" "crc"; Rd "crcCache" "err"; User; User])
].

(** Package-level variables: registry.go 240 (Default) is not among them: it is the result of a
    call of NewRegistry that the first goroutine makes first. *)
Definition monkit : library := {|
  globals := [("ids", "ids"); ("nilFunc", "Func"); ("errorNameHandlers", "errorNameHandlers");
    ("defaultTicker", "ticker"); ("unparented", "ctxVar"); ("taskSecret", "ctxVar");
    ("donePointer", "Span"); ("crcCache", "crcCache")];
  methods := users ++ spans ++ contexts ++ traces ++ funcs ++ registries ++ scopes ++ callbacks ++
    counters ++ meters ++ vals ++ error_names ++ collectors ++ collecting ++ reports;
|}.

(** ** Three functions that are not in it *)

(** stats.go 77-83: Collect of a Counter (counter.go 116-128), whose callback turns the key
    of the counter itself into a string *)
Definition collectCounter : method :=
  fn [("c", "Counter")]
    (locked "c" "mtx" [Rd "c" "val"; Rd "c" "low"; Rd "c" "high"; Rd "c" "nonempty"] ++
     Get "c" "key" "k" "TagSet" :: keyString "k" ++ keyString "k" ++ keyString "k").

(** task.go 35-48 with ctx.go 211-214: Task.Func of a Task made by Scope.Task *)
Definition taskFunc : method := fn [("task", "Task")] [Rd "task" "f"].

(** environment/runtime.go 31-53: the source, and its Stats *)
Definition runtime : list method := [
  fn [] [New "d" "runtimeDist" []];
  fn [("d", "runtimeDist")]
    [User; Rd "d" "lastNumGC"; If (insert "d" "durDist") []; Loop [Rd "d" "durDist"; If [Wr "d" "durDist" []] []; User]]
].

(** The library with more functions. *)
Definition plus (L : library) (ms : list method) : library :=
  {| globals := globals L; methods := methods L ++ ms |}.
