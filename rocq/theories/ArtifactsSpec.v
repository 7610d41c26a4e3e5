(** Vocabulary for the properties of artifacts. *)
From Verif Require Export Artifacts.

(** [interleaving ls l]: [l] is made of the lists [ls], each in its order, mixed in any way. *)
Inductive interleaving {X} : list (list X) -> list X -> Prop :=
| il_done ls : Forall (fun l => l = []) ls -> interleaving ls []
| il_step before x l after rest :
    interleaving (before ++ l :: after) rest -> interleaving (before ++ (x :: l) :: after) (x :: rest).

(** The bytes of [file] from position [first] to [last]. *)
Definition range (file : bytes) (first last : nat) : bytes := take (last + 1 - first) (drop first file).

(** Data, when the server gives any, is what was asked for. *)
Definition honest (file : bytes) (server : nat -> nat -> nat -> attempt) : Prop :=
  forall first last n data, server first last n = AData data -> data = range file first last.

(** The request for a range succeeds at one of five attempts, none before having failed while the body was
    read. *)
Definition succeeds (server : nat -> attempt) : Prop :=
  exists n, (n < 5)%nat /\ (exists data, server n = AData data) /\ forall m, (m < n)%nat -> server m = AFail.

(** All requests for the chunks of the file succeed. *)
Definition all_succeed (server : nat -> nat -> nat -> attempt) (chunk size : nat) : Prop :=
  forall i, (i * chunk < size)%nat -> succeeds (server (i * chunk)%nat (Nat.min (i * chunk + chunk) size - 1)%nat).
