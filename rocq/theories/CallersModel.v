(** callers.go.  The call stack is an input: the name of the frame that the runtime
    returns, if it returns one. *)
From Verif Require Import Base Strings.
Local Open Scope Z_scope.

(** s[k:], with Go's bounds check *)
Definition slice_from (s : bytes) (k : Z) : outcome bytes :=
  if (0 <=? k) && (k <=? Z.of_nat (length s)) then Ok (drop (Z.to_nat k) s) else Panic (B "slice bounds out of range").
(** strings.IndexByte and LastIndexByte return -1 for "not found" *)
Definition pos (o : option nat) : Z := match o with Some n => Z.of_nat n | None => -1 end.

Definition slash : ascii := "/".
Definition dot : ascii := ".".

(** callerPackage, callers.go 22-34; [None]: no frame, or one without a Func *)
Definition caller_package (name : option bytes) : bytes :=
  match name with
  | None => B "unknown"
  | Some n =>
      let slash_pieces := split slash n in
      let dot_pieces := split2 dot (List.last slash_pieces []) in
      join (B "/") (removelast slash_pieces) ++ B "/" ++ List.hd [] dot_pieces
  end.

(** extractFuncName, callers.go 65-80 *)
Definition extract_func_name (fq : bytes) : outcome (bytes * bool) :=
  let last_slash := pos (last_index_byte slash fq) in
  if Z.of_nat (length fq) <=? last_slash + 1 then Ok ([], false)
  else
    match slice_from fq (last_slash + 1) with
    | Panic m => Panic m
    | Ok qualified =>
        let package_dot := pos (index_byte dot qualified) in
        if (package_dot <? 0) || (Z.of_nat (length qualified) <=? package_dot + 1) then Ok ([], false)
        else match slice_from qualified (package_dot + 1) with Panic m => Panic m | Ok f => Ok (f, true) end
    end.

(** callerFunc, callers.go 36-50 *)
Definition caller_func (name : option bytes) : outcome bytes :=
  match name with
  | None | Some [] => Ok (B "unknown")
  | Some n =>
      match extract_func_name n with
      | Panic m => Panic m
      | Ok (f, ok) => Ok (if ok then f else B "unknown")
      end
  end.
