(** Model of the HTTP client for JSON-RPC, src/util/rpc/http/json_rpc_http_client.cpp and
    json_rpc_http_client.hpp.

    libcurl is whatever it likes to be within its documented contract: it delivers data of, and
    reports on, only transfers it was given and that have not ended; adding and removing a
    handle may fail. Its doings and the calls of the user are the inputs of a run.

    Simplifications, valid for the whole file:
    - handles are numbered in the order curl_easy_init makes them, calls in the order they are
      made; a callback is the number of its call; calls a callback makes itself are part of
      the input that calls it;
    - the loop of pump (cpp:152-226) is one input for each message it reads; polling and
      sockets are left to libcurl. A failed poll changes nothing;
    - an endpoint is its index in m_endpoints, [ends] their number; [parse] is Json::Reader;
    - payloads, headers and timeouts are dropped (the payload is made from the method and the
      parameters of the call, cpp:105-109). *)
From stdpp Require Import base option list gmap fin_maps.
From Coq Require Import NArith.
From Verif Require Import Base.
Open Scope N_scope.

(** What is seen of a run. *)
Inductive hevent (J : Type) :=
| HCall (c : nat)                       (* the user calls *)
| HSent (c : nat) (e : N)               (* the request is given to libcurl, for endpoint e *)
| HData (c : nat) (b : bytes)           (* some of a response arrives *)
| HFailed (c : nat)                     (* the transfer failed *)
| HDone (c : nat) (code : N)            (* it was completed with this HTTP code *)
| HAnswer (c : nat) (r : option J)      (* the callback is called *)
| HPump (b : bool)                      (* pump returns false *)
| HExit                                 (* log->fatal *)
| HUndefined.                           (* m_endpoints is accessed beyond its end *)
Arguments HCall {J}. Arguments HSent {J}. Arguments HData {J}. Arguments HFailed {J}.
Arguments HDone {J}. Arguments HAnswer {J}. Arguments HPump {J}. Arguments HExit {J}.
Arguments HUndefined {J}.

(** CURLMsg: m->msg, m->data.result and the HTTP code. *)
Inductive hmsg := MDone (code : N) | MError | MOther.

(** What happens next. [add], [rm]: whether curl_multi_add_handle and curl_multi_remove_handle
    return CURLM_OK; [again]: the calls the callback makes, each with its [add]. *)
Inductive hinput :=
| ICall (add : bool)
| IData (h : nat) (b : bytes)
| IMsg (h : nat) (m : hmsg) (again : list bool) (rm add : bool)
| IDestroy (rm : bool).

(** transfer, hpp:90-94. *)
Record transfer := Tf { tf_id : nat; tf_data : bytes }.

(** m_transfers, m_handles, the endpoint each handle was made with, m_lb_idx; [hs_next] calls
    were made; [hs_stop]: the client is gone. *)
Record hst (J : Type) := Hst {
  hs_tf : gmap nat transfer; hs_free : list nat; hs_urls : list N; hs_idx : N;
  hs_next : nat; hs_stop : bool; hs_hist : list (hevent J)
}.
Arguments Hst {J}. Arguments hs_tf {J}. Arguments hs_free {J}. Arguments hs_urls {J}.
Arguments hs_idx {J}. Arguments hs_next {J}. Arguments hs_stop {J}. Arguments hs_hist {J}.

Section http.
  Context {J : Type} (ends : N) (parse : bytes -> option J).

  Definition h_emit (s : hst J) (l : list (hevent J)) : hst J :=
    Hst (hs_tf s) (hs_free s) (hs_urls s) (hs_idx s) (hs_next s) (hs_stop s) (hs_hist s ++ l).
  Definition h_stop (s : hst J) (l : list (hevent J)) : hst J :=
    Hst (hs_tf s) (hs_free s) (hs_urls s) (hs_idx s) (hs_next s) true (hs_hist s ++ l).

  (** The rest of call, cpp:97-117: the transfer is made and given to libcurl. *)
  Definition start (s : hst J) (h : nat) (e : N) (add : bool) : hst J :=
    let c := hs_next s in
    let s1 := Hst (<[h := Tf c []]> (hs_tf s)) (hs_free s) (hs_urls s) (hs_idx s) (S c)
                (hs_stop s) (hs_hist s ++ [HCall c]) in
    if add then h_emit s1 [HSent c e] else h_stop s1 [HExit].

  (** call, cpp:78-121: a handle that is free, or a new one for the next endpoint. *)
  Definition call (s : hst J) (add : bool) : hst J :=
    if hs_stop s then s
    else match hs_free s with
    | h :: free =>
        start (Hst (hs_tf s) free (hs_urls s) (hs_idx s) (hs_next s) (hs_stop s) (hs_hist s))
          h (default 0 (hs_urls s !! h)) add
    | [] =>
        if ends =? 0 then h_stop s [HUndefined]
        else start (Hst (hs_tf s) [] (hs_urls s ++ [hs_idx s]) ((hs_idx s + 1) mod ends)
                      (hs_next s) (hs_stop s) (hs_hist s))
               (length (hs_urls s)) (hs_idx s) add
    end.

  (** What the callback is called with, cpp:162-163, 183-212. *)
  Definition result (m : hmsg) (data : bytes) : option J :=
    match m with
    | MDone code => if code / 100 =? 2 then parse data else None
    | _ => None
    end.

  (** The body of the loop of pump, cpp:153-225. A failed transfer is given to libcurl again
      with what it has received so far (165-181); if that fails the transfer is dropped with
      its callback. *)
  Definition message (s : hst J) (h : nat) (m : hmsg) (again : list bool) (rm add : bool)
      : hst J :=
    match hs_tf s !! h with
    | None => s
    | Some tf =>
        let c := tf_id tf in
        match m with
        | MError =>
            if rm && add
            then h_emit s [HFailed c; HSent c (default 0 (hs_urls s !! h))]
            else Hst (delete h (hs_tf s)) (hs_free s) (hs_urls s) (hs_idx s) (hs_next s)
                   (hs_stop s) (hs_hist s ++ [HFailed c; HPump false])
        | _ =>
            let s1 := Hst (delete h (hs_tf s)) (hs_free s) (hs_urls s) (hs_idx s) (hs_next s)
                        (hs_stop s)
                        (hs_hist s ++ (match m with MDone code => [HDone c code] | _ => [] end)
                           ++ [HAnswer c (result m (tf_data tf))]) in
            let s2 := fold_left call again s1 in
            let s3 := Hst (hs_tf s2) (hs_free s2 ++ [h]) (hs_urls s2) (hs_idx s2) (hs_next s2)
                        (hs_stop s2) (hs_hist s2) in
            if hs_stop s2 then s2 else if rm then s3 else h_emit s3 [HPump false]
        end
    end.

  (** write_data, cpp:123-131. *)
  Definition write_data (s : hst J) (h : nat) (b : bytes) : hst J :=
    match hs_tf s !! h with
    | None => s
    | Some tf =>
        Hst (<[h := Tf (tf_id tf) (tf_data tf ++ b)]> (hs_tf s)) (hs_free s) (hs_urls s)
          (hs_idx s) (hs_next s) (hs_stop s) (hs_hist s ++ [HData (tf_id tf) b])
    end.

  (** ~json_rpc_http_client, cpp:60-76; if removing a handle fails, the program exits at the
      first one. *)
  Definition destroy (s : hst J) (rm : bool) : hst J :=
    if rm || bool_decide (hs_tf s = ∅)
    then h_stop s (map (fun p => HAnswer (tf_id p.2) None) (map_to_list (hs_tf s)))
    else h_stop s [HExit].

  Definition http_step (s : hst J) (i : hinput) : hst J :=
    if hs_stop s then s
    else match i with
    | ICall add => call s add
    | IData h b => write_data s h b
    | IMsg h m again rm add => message s h m again rm add
    | IDestroy rm => destroy s rm
    end.

  Definition http0 : hst J := Hst ∅ [] [] 0 O false [].

  (** What is seen of a client when this happens. *)
  Definition http (ins : list hinput) : list (hevent J) := hs_hist (fold_left http_step ins http0).
End http.
