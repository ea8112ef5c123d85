(** Vocabulary for C37: the documented precedence. *)
From Verif Require Import Base ErrNamesModel.
Local Arguments B : simpl never.

(** The build without appengine and tinygo. *)
Definition standard : build := Build false false.

Definition known_names : list (known * bytes) :=
  [(KEOF, B "EOF"); (KUnexpectedEOF, B "Unexpected EOF Error"); (KClosedPipe, B "Closed Pipe Error"); (KNoProgress, B "No Progress Error");
   (KShortBuffer, B "Short Buffer Error"); (KShortWrite, B "Short Write Error"); (KCanceled, B "Canceled"); (KDeadlineExceeded, B "Timeout")].
Definition net_names : list (etype * bytes) :=
  [(TUnknownNetwork, B "Unknown Network Error"); (TAddr, B "Addr Error"); (TInvalidAddr, B "Invalid Addr Error"); (TOp, B "Net Op Error");
   (TParse, B "Net Parse Error"); (TDNS, B "DNS Error"); (TDNSConfig, B "DNS Config Error"); (TOther true, B "Network Error")].

(** The name of [e] in the standard build, with the handlers [hs] listed as they were
    added. *)
Inductive documented (hs : list handler) (e : gerr) : bytes -> Prop :=
| by_handler hs1 h hs2 n : hs = hs1 ++ h :: hs2 -> h e = Some n -> Forall (fun h => h e = None) hs2 -> documented hs e n
| by_itself n : Forall (fun h => h e = None) hs -> er_name e = Some (Some n) -> documented hs e n
| by_value k n : Forall (fun h => h e = None) hs -> (er_name e = None \/ er_name e = Some None) -> er_known e = Some k -> (k, n) ∈ known_names -> documented hs e n
| by_errno : Forall (fun h => h e = None) hs -> (er_name e = None \/ er_name e = Some None) -> er_known e = None -> er_type e = TErrno -> documented hs e (B "Errno")
| by_type n : Forall (fun h => h e = None) hs -> (er_name e = None \/ er_name e = Some None) -> er_known e = None -> (er_type e, n) ∈ net_names -> documented hs e n
| by_default : Forall (fun h => h e = None) hs -> (er_name e = None \/ er_name e = Some None) -> er_known e = None ->
    er_type e <> TErrno -> (forall n, (er_type e, n) ∉ net_names) -> documented hs e (B "System Error").

(** Neither a handler nor the error itself nor a comparison names it: its type decides. *)
Definition unnamed (hs : list handler) (e : gerr) : Prop :=
  Forall (fun h => h e = None) hs /\ (er_name e = None \/ er_name e = Some None) /\ er_known e = None.
(** The types that the net package of tinygo does not have. *)
Definition not_in_tinygo : list etype := [TUnknownNetwork; TInvalidAddr; TDNS; TDNSConfig].
