(** error_names.go 49-97, error_names_net.go 26-46, error_names_net_tinygo.go 26-50,
    error_names_syscall.go, error_names_ae.go. *)
From Verif Require Import Base.
Local Arguments B : simpl never.

(** The errors getErrorName compares with (75-91). *)
Inductive known := KEOF | KUnexpectedEOF | KClosedPipe | KNoProgress | KShortBuffer | KShortWrite | KCanceled | KDeadlineExceeded.
(** Dynamic types, as far as the code distinguishes them; [net]: implements net.Error. *)
Inductive etype := TErrno | TSyscallError | TUnknownNetwork | TAddr | TInvalidAddr | TOp | TParse | TDNS | TDNSConfig | TOther (net : bool).
(** An error: is it one of the known values; its type; what its Name method returns, if it
    has one ([Some None]: the second result is false).  Name and the handlers are taken to
    return, without panic and without side effects. *)
Record gerr := GErr { er_known : option known; er_type : etype; er_name : option (option bytes) }.
Definition handler : Type := gerr -> option bytes.

(** The build: appengine, tinygo. *)
Record build := Build { bd_appengine : bool; bd_tinygo : bool }.

(** isErrnoError *)
Definition is_errno (b : build) (e : gerr) : bool :=
  if bd_appengine b then false else match er_type e with TErrno => true | _ => false end.
(** getNetErrorName, error_names_net.go; syscall.Errno has Timeout and Temporary and so is a
    net.Error; "" for none *)
Definition net_name (e : gerr) : bytes :=
  match er_type e with
  | TSyscallError => []
  | TUnknownNetwork => B "Unknown Network Error"
  | TAddr => B "Addr Error"
  | TInvalidAddr => B "Invalid Addr Error"
  | TOp => B "Net Op Error"
  | TParse => B "Net Parse Error"
  | TDNS => B "DNS Error"
  | TDNSConfig => B "DNS Config Error"
  | TErrno | TOther true => B "Network Error"
  | TOther false => []
  end.
(** error_names_net_tinygo.go: the types left out are caught by net.Error *)
Definition net_name_tinygo (e : gerr) : bytes :=
  match er_type e with
  | TSyscallError => []
  | TAddr => B "Addr Error"
  | TOp => B "Net Op Error"
  | TParse => B "Net Parse Error"
  | TUnknownNetwork | TInvalidAddr | TDNS | TDNSConfig | TErrno | TOther true => B "Network Error"
  | TOther false => []
  end.

(** error_names.go 59-97: what happens when no handler accepts *)
Definition after_handlers (b : build) (e : gerr) : bytes :=
  match er_name e with
  | Some (Some n) => n
  | _ =>
      match er_known e with
      | Some KEOF => B "EOF"
      | Some KUnexpectedEOF => B "Unexpected EOF Error"
      | Some KClosedPipe => B "Closed Pipe Error"
      | Some KNoProgress => B "No Progress Error"
      | Some KShortBuffer => B "Short Buffer Error"
      | Some KShortWrite => B "Short Write Error"
      | Some KCanceled => B "Canceled"
      | Some KDeadlineExceeded => B "Timeout"
      | None =>
          if is_errno b e then B "Errno"
          else
            let name := if bd_tinygo b then net_name_tinygo e else net_name e in
            match name with [] => B "System Error" | _ => name end
      end
  end.

(** getErrorName, 49-97: the handlers from the last to the first (52-56) *)
Fixpoint try_handlers (newest_first : list handler) (e : gerr) : option bytes :=
  match newest_first with
  | [] => None
  | h :: hs => match h e with Some n => Some n | None => try_handlers hs e end
  end.
Definition get_error_name (b : build) (handlers : list handler) (e : gerr) : bytes :=
  match try_handlers (rev handlers) e with Some n => n | None => after_handlers b e end.
