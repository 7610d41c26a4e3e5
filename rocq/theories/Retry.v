(** Retried RPC operations, crates/network/rpc/src/retry.rs.

    The loop and the waiting times are those of the [backoff] crate, modelled as documented; times are in
    nanoseconds, and the rounding of its floating point products is left out. *)
From Verif Require Export Flow Chars.
Open Scope N_scope.
Open Scope flow_scope.

(** [tonic::Code], used in crates/network/rpc/src/retry.rs 57-82. *)
Inductive code : Type :=
| COk | CCancelled | CUnknown | CInvalidArgument | CDeadlineExceeded | CNotFound | CAlreadyExists
| CPermissionDenied | CResourceExhausted | CFailedPrecondition | CAborted | COutOfRange | CUnimplemented
| CInternal | CUnavailable | CDataLoss | CUnauthenticated.

(** An error of an operation: a [tonic::Status] or anything else, crates/network/rpc/src/retry.rs 56, 83-85. *)
Inductive rpc_error : Type := Status (c : code) (message : list N) | OtherError (message : list N).

(** [to_lowercase], crates/network/rpc/src/retry.rs 85.  Apart from the letters A to Z only the Kelvin sign
    and the capital I with a dot have ASCII characters in their lower case; the lower case of other characters
    cannot matter for the search and is left out. *)
Definition lower_char (c : N) : list N :=
  if (65 <=? c) && (c <=? 90) then [c + 32]
  else if c =? 8490 then [107] else if c =? 304 then [105; 775] else [c].
(** [to_lowercase] of a whole message, crates/network/rpc/src/retry.rs 85. *)
Definition to_lowercase (s : list N) : list N := flat_map lower_char s.

(** [contains], crates/network/rpc/src/retry.rs 86-93. *)
Fixpoint contains (s part : list N) : bool :=
  starts_with s part || match s with [] => false | _ :: r => contains r part end.

(** Whether an error is retried, crates/network/rpc/src/retry.rs 55-105. *)
Definition transient (e : rpc_error) : bool :=
  match e with
  | Status c _ =>
      match c with
      | CUnavailable | CDeadlineExceeded | CInternal | CAborted => true
      | _ => false
      end
  | OtherError message =>
      let error_msg := to_lowercase message in
      contains error_msg str_tls_handshake || contains error_msg str_dns_error ||
      contains error_msg str_connection_reset || contains error_msg str_broken_pipe ||
      contains error_msg str_transport_error || contains error_msg str_failed_to_lookup ||
      contains error_msg str_timeout || contains error_msg str_deadline_exceeded
  end.

(** ** Waiting *)

(** Events of a retried operation: the clock is read, a random number is drawn, a pause is made, or an event
    of the operation happens (crates/network/rpc/src/retry.rs 51-109, [backoff]). *)
Inductive timed (Ev : Type) : Type :=
| Clock (t : N)
| Random (r : N)
| Slept (d : N) (done : unit)
| Op (e : Ev).
Arguments Clock {Ev} t.
Arguments Random {Ev} r.
Arguments Slept {Ev} d done.
Arguments Op {Ev} e.

(** One second in nanoseconds ([Duration::from_secs], crates/network/rpc/src/retry.rs 9, 45-46). *)
Definition second : N := 1000000000.
(** [initial_interval], crates/network/rpc/src/retry.rs 45. *)
Definition initial_interval : N := 1 * second.
(** [max_interval], crates/network/rpc/src/retry.rs 46. *)
Definition max_interval : N := 120 * second.
(** [DEFAULT_RETRY_TIMEOUT], crates/network/rpc/src/retry.rs 9. *)
Definition default_timeout : N := 120 * second.

(** The interval after this one: half as long again, up to the maximum ([backoff], with its default
    multiplier; crates/network/rpc/src/retry.rs 44-49). *)
Definition next_interval (interval : N) : N := N.min max_interval (interval * 3 / 2).
(** A random time of half to one and a half intervals ([backoff], with its default randomization factor;
    crates/network/rpc/src/retry.rs 44-49). *)
Definition pause_of (interval r : N) : N := interval / 2 + r mod (interval + 1).

(** [next_backoff]: the pause, or none if it would end after the timeout, counted from [start]
    ([backoff]; crates/network/rpc/src/retry.rs 51). *)
Definition next_pause {Ev} (timeout : option N) (start interval : N) : flow (timed Ev) (option N) :=
  ask! now := ask Clock in
  let elapsed := now - start in
  if match timeout with Some v => v <? elapsed | None => false end then Ret None
  else
    ask! r := ask Random in
    let d := pause_of interval r in
    if match timeout with Some v => elapsed + d <=? v | None => true end then Ret (Some d) else Ret None.

(** [retry], crates/network/rpc/src/retry.rs 51-109.  The number of rounds is bounded by [fuel]; [None] means
    that it was not enough. *)
Fixpoint retry {Ev T} (fuel : nat) (timeout : option N) (start interval : N)
    (operation : flow Ev (result T rpc_error))
    : flow (timed Ev) (option (result T rpc_error)) :=
  match fuel with
  | O => Ret None
  | S fuel' =>
      ask! outcome := flow_map Op operation in
      match outcome with
      | Ok x => Ret (Some (Ok x))
      | Err e =>
          if transient e then
            ask! p := next_pause timeout start interval in
            match p with
            | Some d =>
                ask! _ := ask (Slept d) in
                retry fuel' timeout start (next_interval interval) operation
            | None => Ret (Some (Err e))
            end
          else Ret (Some (Err e))
      end
  end.

(** [retry_operation], crates/network/rpc/src/retry.rs 35-110. *)
Definition retry_operation {Ev T} (fuel : nat) (operation : flow Ev (result T rpc_error)) (timeout : option N)
    : flow (timed Ev) (option (result T rpc_error)) :=
  ask! start := ask Clock in retry fuel timeout start initial_interval operation.
(** [with_retry], crates/network/rpc/src/retry.rs 114-135. *)
Definition with_retry {Ev T} (fuel : nat) (operation : flow Ev (result T rpc_error))
    : flow (timed Ev) (option (result T rpc_error)) := retry_operation fuel operation (Some default_timeout).
