(** Artifacts, crates/network/artifacts/src/lib.rs: storage keys and downloads.

    Strings are lists of characters.  The server is a function from a byte range and the number of the
    attempt to what the client sees; waiting between attempts and time limits are left out. *)
From Verif Require Export Base Chars.
Open Scope N_scope.

(** ** Keys *)

(** [ArtifactType], crates/network/artifacts/src/lib.rs 29, 399-408. *)
Inductive artifact_type : Type :=
| UnspecifiedArtifactType | ProgramArtifact | StdinArtifact | ProofArtifact | TransactionArtifact
| PrivateStdinArtifact.

(** [get_s3_prefix], crates/network/artifacts/src/lib.rs 399-408. *)
Definition get_s3_prefix (t : artifact_type) : list N :=
  match t with
  | UnspecifiedArtifactType => str_artifacts
  | ProgramArtifact => str_programs
  | StdinArtifact => str_stdins
  | ProofArtifact => str_proofs
  | TransactionArtifact => str_transactions
  | PrivateStdinArtifact => str_private_stdins
  end.

(** The character [/].  (crates/network/artifacts/src/lib.rs 391.) *)
Definition slash : N := 47.

(** [get_s3_key], crates/network/artifacts/src/lib.rs 412-414. *)
Definition get_s3_key (t : artifact_type) (id : list N) : list N := get_s3_prefix t ++ slash :: id.

(** [split('/')], used in crates/network/artifacts/src/lib.rs 391. *)
Fixpoint split_slash (s : list N) : list (list N) :=
  match s with
  | [] => [[]]
  | c :: r =>
      if c =? slash then [] :: split_slash r
      else match split_slash r with
           | seg :: segs => (c :: seg) :: segs
           | [] => [[c]]
           end
  end.

(** [extract_artifact_name], crates/network/artifacts/src/lib.rs 390-392: the last segment; [None] is the
    error. *)
Definition extract_artifact_name (url : list N) : option (list N) := last (split_slash url).

(** ** Downloads *)

(** What one request gives: no answer (or an answer with an error status), an answer whose body cannot be
    read, or data (crates/network/artifacts/src/lib.rs 529-556, 657-705). *)
Inductive attempt : Type := AFail | ABodyFail | AData (data : bytes).

(** The outcome of a download.  (The result of crates/network/artifacts/src/lib.rs 105-141, 154-210.) *)
Inductive download : Type := DOk (data : bytes) | DErr | DPanic.

(** The retry loop for one chunk: five attempts; a body that cannot be read ends it
    (crates/network/artifacts/src/lib.rs 525-556, 653-705). *)
Fixpoint fetch_chunk (server : nat -> attempt) (left number : nat) : option bytes :=
  match left with
  | O => None
  | S left' =>
      match server number with
      | AData data => Some data
      | ABodyFail => None
      | AFail => fetch_chunk server left' (S number)
      end
  end.
(** [max_retries], crates/network/artifacts/src/lib.rs 114, 526, 654. *)
Definition max_attempts : nat := 5.

(** [(0..size).step_by(CHUNK_SIZE).enumerate()], crates/network/artifacts/src/lib.rs 505, 634. *)
Definition starts (chunk size : nat) : list (nat * nat) :=
  map (fun i => (i, i * chunk)%nat) (seq 0 ((size + chunk - 1) / chunk)).

(** [slice.chunks(k)], used in crates/network/artifacts/src/lib.rs 513, 642; [fuel] is at least the length. *)
Fixpoint chunks_of {X} (fuel k : nat) (l : list X) : list (list X) :=
  match fuel, l with
  | S fuel', _ :: _ => take k l :: chunks_of fuel' k (drop k l)
  | _, _ => []
  end.

(** The range of a request: the first and the last position
    (crates/network/artifacts/src/lib.rs 522-523, 650-651). *)
Definition last_of (chunk size start : nat) : nat := (Nat.min (start + chunk) size - 1)%nat.

(** One task: the chunks of a group in turn; it sends what it got and stops at the first failure
    (crates/network/artifacts/src/lib.rs 520-559, 647-708). *)
Fixpoint run_group (server : nat -> nat -> nat -> attempt) (chunk size : nat) (group : list (nat * nat))
    : list (nat * bytes) * bool :=
  match group with
  | [] => ([], true)
  | (index, start) :: rest =>
      match fetch_chunk (server start (last_of chunk size start)) max_attempts 0 with
      | Some data =>
          let (sent, ok) := run_group server chunk size rest in ((index, data) :: sent, ok)
      | None => ([], false)
      end
  end.

(** [result[start..end].copy_from_slice(&chunk)], which panics if the lengths differ
    (crates/network/artifacts/src/lib.rs 566-568, 715-717). *)
Definition write_chunk (chunk size : nat) (result : bytes) (m : nat * bytes) : option bytes :=
  let (index, data) := m in
  let first := (index * chunk)%nat in
  let stop := Nat.min (first + length data) size in
  if (first <=? stop)%nat && (stop - first =? length data)%nat
  then Some (take first result ++ data ++ drop stop result)
  else None.
(** The receiving loop, crates/network/artifacts/src/lib.rs 564-569, 713-718. *)
Fixpoint assemble (chunk size : nat) (result : bytes) (messages : list (nat * bytes)) : option bytes :=
  match messages with
  | [] => Some result
  | m :: rest =>
      match write_chunk chunk size result m with
      | Some result' => assemble chunk size result' rest
      | None => None
      end
  end.

(** The groups of chunks given to the tasks; [None] is the division by zero
    (crates/network/artifacts/src/lib.rs 505-513, 634-642). *)
Definition groups (chunk size concurrency : nat) : option (list (list (nat * nat))) :=
  let all := starts chunk size in
  let n := length all in
  let c := Nat.min concurrency n in
  if (c =? 0)%nat then None else Some (chunks_of n (Nat.max (n / c) 1) all).

(** What the tasks send, and whether each succeeds.  (crates/network/artifacts/src/lib.rs 518-560, 645-709.)
    *)
Definition tasks (server : nat -> nat -> nat -> attempt) (chunk size concurrency : nat)
    : option (list (list (nat * bytes) * bool)) :=
  option_map (map (run_group server chunk size)) (groups chunk size concurrency).

(** Download in parallel, when the messages of the tasks arrive as [arrivals]
    (crates/network/artifacts/src/lib.rs 505-575, 634-724). *)
Definition download_chunks (server : nat -> nat -> nat -> attempt) (chunk size concurrency : nat)
    (arrivals : list (nat * bytes)) : download :=
  match tasks server chunk size concurrency with
  | None => DPanic
  | Some rs =>
      match assemble chunk size (replicate size 0) arrivals with
      | None => DPanic
      | Some result => if forallb snd rs then DOk result else DErr
      end
  end.

(** A request for the whole file, crates/network/artifacts/src/lib.rs 455-475, 578-591. *)
Definition whole (a : attempt) : download := match a with AData data => DOk data | _ => DErr end.

(** [CHUNK_SIZE], crates/network/artifacts/src/lib.rs 46. *)
Definition chunk_size : N := 32 * 1024 * 1024.

(** [download_s3_file_par], crates/network/artifacts/src/lib.rs 477-576, after a successful request for the
    size; the chunk size is a parameter. *)
Definition download_s3_par (chunk : nat) (server : nat -> nat -> nat -> attempt) (get : attempt) (size : Z)
    (concurrency : nat) (arrivals : list (nat * bytes)) : download :=
  if (size <=? 0)%Z then DErr
  else if (Z.to_nat size <=? chunk)%nat then whole get
  else download_chunks server chunk (Z.to_nat size) concurrency arrivals.

(** [download_https_file_par], crates/network/artifacts/src/lib.rs 594-725, after a successful request for
    the headers: whether ranges are supported and the length, if given. *)
Definition download_https_par (chunk : nat) (server : nat -> nat -> nat -> attempt) (get : attempt)
    (ranges : bool) (size : option nat) (concurrency : nat) (arrivals : list (nat * bytes)) : download :=
  match ranges, size with
  | true, Some n =>
      if (n <=? chunk)%nat then whole get else download_chunks server chunk n concurrency arrivals
  | _, _ => whole get
  end.

(** [Artifact::download_raw], crates/network/artifacts/src/lib.rs 105-141: five attempts for the whole file,
    whatever the error. *)
Fixpoint download_retry (get : nat -> attempt) (left number : nat) : download :=
  match left with
  | O => DErr
  | S left' =>
      match whole (get number) with
      | DOk data => DOk data
      | _ => download_retry get left' (S number)
      end
  end.
(** [Artifact::download_raw] with its five attempts, crates/network/artifacts/src/lib.rs 105-141. *)
Definition download_raw (get : nat -> attempt) : download := download_retry get max_attempts 0.
