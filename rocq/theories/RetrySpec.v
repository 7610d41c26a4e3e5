(** Vocabulary for the properties of retried operations. *)
From Coq Require Import String.
From Verif Require Export Retry.
Open Scope N_scope.
Open Scope list_scope.

(** The events of the operation. *)
Definition ops {Ev} (tr : list (timed Ev)) : list Ev :=
  flat_map (fun e => match e with Op x => [x] | _ => [] end) tr.

(** The pauses made. *)
Definition pauses {Ev} (tr : list (timed Ev)) : list N :=
  flat_map (fun e => match e with Slept d _ => [d] | _ => [] end) tr.

(** The sum of a list of numbers. *)
Definition total_time (l : list N) : N := fold_right N.add 0 l.

(** The clock never runs backwards, and a pause lasts at least as long as asked for. *)
Fixpoint well_timed {Ev} (now : N) (tr : list (timed Ev)) : Prop :=
  match tr with
  | [] => True
  | Clock t :: r => now <= t /\ well_timed t r
  | Slept d _ :: r => well_timed (now + d) r
  | _ :: r => well_timed now r
  end.

(** The length of the [n]-th interval: 1, 1.5, 2.25, ... seconds, up to two minutes. *)
Definition interval_no (n : nat) : N := Nat.iter n (fun i => N.min 120000000000 (i * 3 / 2)) 1000000000.

(** The messages that mark an error as temporary. *)
Definition marks : list (list N) :=
  map chars
    ["tls handshake"; "dns error"; "connection reset"; "broken pipe"; "transport error"; "failed to lookup";
     "timeout"; "deadline exceeded"]%string.

(** A character read as a small letter: a capital one, or the Kelvin sign. *)
Definition reads_as (c d : N) : Prop := c = d /\ ~ 65 <= c <= 90 \/ 65 <= c <= 90 /\ d = c + 32 \/ c = 8490 /\ d = 107.

(** Errors after which the operation is tried again. *)
Definition temporary (e : rpc_error) : Prop :=
  match e with
  | Status c _ => c = CUnavailable \/ c = CDeadlineExceeded \/ c = CInternal \/ c = CAborted
  | OtherError m => exists mark before part after, In mark marks /\ m = before ++ part ++ after /\ Forall2 reads_as part mark
  end.
