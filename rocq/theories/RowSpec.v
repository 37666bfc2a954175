(** Vocabulary for property C93, about what is seen of one put_row or get_row. *)
From stdpp Require Import base option list.
From Coq Require Import NArith.
From Verif Require Import Base ParsecShardModel RowModel.

(** The broker dealt with its call [n]: it answered it, or refused it (returned false). *)
Definition settles (n : nat) (e : revent) : option unit :=
  match e with
  | EAnswer m _ | EReturn m false => if Nat.eqb m n then Some tt else None
  | _ => None
  end.
Definition settled (n : nat) (h : list revent) : list unit := omap (settles n) h.

(** A broker that keeps to its interface: it answers a call at most once, and not at all if it
    refuses it. *)
Definition polite (h : list revent) : Prop := forall n, (length (settled n h) <= 1)%nat.

(** It has dealt with every call. *)
Definition answered (h : list revent) : Prop :=
  forall n c, ECall n c ∈ h -> settled n h <> [].

(** What result_callback was called with, in order. *)
Definition results (h : list revent) : list answer :=
  omap (fun e => match e with EResult r => Some r | _ => None end) h.

(** What the caller of put_row hears: the calls of result_callback, and put_row returning
    false. *)
Definition outcomes (h : list revent) : list answer :=
  omap (fun e => match e with EResult r => Some r | EDone (AErr r) => Some (AErr r)
                 | _ => None end) h.

(** [v] was stored under [k]: a ticket was given, the key locked for writing with it, the
    ticket committed with this update and nothing else, and finished, in this order, each
    without an error. *)
Definition stored (k : key) (v : bytes) (h : list revent) : Prop :=
  exists t n0 n1 n2 n3 w,
    [EAnswer n0 (ATicket t);
     ECall n1 (CLock t k Write); EAnswer n1 (AValue w);
     ECall n2 (CCommit t [(k, v)]); EAnswer n2 AOk;
     ECall n3 (CFinish t); EAnswer n3 AOk] `sublist_of` h.

(** [v] was read from [k]. *)
Definition was_read (k : key) (v : bytes) (h : list revent) : Prop :=
  exists t n0 n1,
    [EAnswer n0 (ATicket t); ECall n1 (CLock t k Read); EAnswer n1 (AValue v)] `sublist_of` h.

(** The read failed: no ticket was given, or the key was not locked; [e] says which. *)
Definition failed_read (k : key) (e : rerror) (h : list revent) : Prop :=
  exists n c e0, [ECall n c; EAnswer n (AErr e0)] `sublist_of` h /\
    (c = CBegin /\ e = TicketNumberAssignment \/
     (exists t, c = CLock t k Read) /\ e = ShardUnreachable).

(** What get_row may return after [h]. *)
Definition justified (k : key) (r : answer) (h : list revent) : Prop :=
  match r with
  | AValue v => was_read k v h
  | AErr e => failed_read k e h
  | _ => False
  end.

(** Ticket [t] was given and is neither finished nor rolled back. *)
Definition abandoned (t : ticket_no) (h : list revent) : Prop :=
  (exists n, EAnswer n (ATicket t) ∈ h) /\
  forall n, ECall n (CFinish t) ∉ h /\ ECall n (CRollback t) ∉ h.

(** A broker that does everything during the call: when a call has returned, nothing more is
    heard of it or of calls made after it. *)
Definition about (i : rinput) : option nat :=
  match i with IAnswer n _ | IReturn n _ | IGo n => Some n | IWake => None end.
Definition synchronous (ins : list rinput) : Prop :=
  forall i j n b m x, (i < j)%nat -> ins !! i = Some (IReturn n b) -> ins !! j = Some x ->
  about x = Some m -> (m < n)%nat.
