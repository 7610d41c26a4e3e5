(** String literals of the client crates as lists of characters. *)
From Coq Require Import String Ascii List NArith.
Open Scope string_scope.

(** The characters of a literal.  (No counterpart; literals as in crates/network/artifacts/src/lib.rs
    402-406.) *)
Definition chars (s : string) : list N := map N_of_ascii (list_ascii_of_string s).

(** Prefixes, crates/network/artifacts/src/lib.rs 401-406. *)
Definition str_artifacts : list N := chars "artifacts".
(** crates/network/artifacts/src/lib.rs 402. *)
Definition str_programs : list N := chars "programs".
(** crates/network/artifacts/src/lib.rs 403. *)
Definition str_stdins : list N := chars "stdins".
(** crates/network/artifacts/src/lib.rs 404. *)
Definition str_proofs : list N := chars "proofs".
(** crates/network/artifacts/src/lib.rs 405. *)
Definition str_transactions : list N := chars "transactions".
(** crates/network/artifacts/src/lib.rs 406. *)
Definition str_private_stdins : list N := chars "private-stdins".

(** Parts of messages of transport errors, crates/network/rpc/src/retry.rs 86-93. *)
Definition str_tls_handshake : list N := chars "tls handshake".
(** crates/network/rpc/src/retry.rs 87. *)
Definition str_dns_error : list N := chars "dns error".
(** crates/network/rpc/src/retry.rs 88. *)
Definition str_connection_reset : list N := chars "connection reset".
(** crates/network/rpc/src/retry.rs 89. *)
Definition str_broken_pipe : list N := chars "broken pipe".
(** crates/network/rpc/src/retry.rs 90. *)
Definition str_transport_error : list N := chars "transport error".
(** crates/network/rpc/src/retry.rs 91. *)
Definition str_failed_to_lookup : list N := chars "failed to lookup".
(** crates/network/rpc/src/retry.rs 92. *)
Definition str_timeout : list N := chars "timeout".
(** crates/network/rpc/src/retry.rs 93. *)
Definition str_deadline_exceeded : list N := chars "deadline exceeded".

(** Messages of the node's own errors, crates/node/core/src/serial.rs 191, 695, and of
    crates/network/artifacts/src/lib.rs 391. *)
Definition str_details_not_found : list N := chars "request details not found".
(** crates/network/artifacts/src/lib.rs 391. *)
Definition str_invalid_url : list N := chars "Invalid S3 URL format".
(** crates/node/core/src/serial.rs 695. *)
Definition str_failed_to_serialize : list N := chars "failed to serialize proof".
