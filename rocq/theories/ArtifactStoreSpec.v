(** Vocabulary for the properties of the artifact store. *)
From Coq Require Import (notations) String.
From Verif Require Export ArtifactStore ArtifactsSpec.
Open Scope list_scope.

(** What the store holds, by bucket and key. *)
Notation store := (gmap (list N * list N) bytes).

(** The folder of each type of artifact. *)
Definition folder (t : artifact_type) : list N :=
  match t with
  | UnspecifiedArtifactType => chars "artifacts"%string
  | ProgramArtifact => chars "programs"%string
  | StdinArtifact => chars "stdins"%string
  | ProofArtifact => chars "proofs"%string
  | TransactionArtifact => chars "transactions"%string
  | PrivateStdinArtifact => chars "private-stdins"%string
  end.

(** The store holds these bytes in [bucket] as the artifact of type [t] and name [id]: under [folder/id]. *)
Definition holds (s : store) (bucket : list N) (t : artifact_type) (id : list N) (data : bytes) : Prop :=
  s !! (bucket, folder t ++ chars "/"%string ++ id) = Some data.

(** How the store answers and changes. *)
Inductive served : store -> request -> store -> Prop :=
| sv_head_fail s b k : served s (Head b k None) s
| sv_head s b k data : s !! (b, k) = Some data -> served s (Head b k (Some (Z.of_nat (length data)))) s
| sv_get_fail s b k : served s (Get b k AFail) s
| sv_get_body s b k : served s (Get b k ABodyFail) s
| sv_get s b k data : s !! (b, k) = Some data -> served s (Get b k (AData data)) s
| sv_put s b k data : served s (Put b k data true) (<[(b, k) := data]> s)
| sv_put_fail s b k data : served s (Put b k data false) s
| sv_put_unknown s b k data : served s (Put b k data false) (<[(b, k) := data]> s)
| sv_web s a : served s (Web a) s.

(** A history: the requests in the order in which they are served, each with the number of the call that makes
    it. *)
Inductive serves : store -> list (nat * request) -> store -> Prop :=
| ss_nil s : serves s [] s
| ss_cons s s1 s' i r h : served s r s1 -> serves s1 h s' -> serves s ((i, r) :: h) s'.

(** The requests of one call. *)
Definition of_call (i : nat) (h : list (nat * request)) : list request :=
  map snd (filter (fun e => e.1 = i) h).

(** The program made these requests and then stopped, or was stopped. *)
Fixpoint begun {Ev X} (p : flow Ev X) (trace : list Ev) : Prop :=
  match p with
  | Ret _ => trace = []
  | Do A mk k => trace = [] \/ exists a rest, trace = mk a :: rest /\ begun (k a) rest
  end.

(** Any number of calls, mixed in any way, each of them stopped anywhere. *)
Record used {X} (C : codec X) (calls : list (call X)) (s : store) (h : list (nat * request)) (s' : store)
    : Prop := Used {
  used_serves : serves s h s';
  used_calls : forall i r, (i, r) ∈ h -> exists c, calls !! i = Some c;
  used_begun : forall i c, calls !! i = Some c -> begun (program C c) (of_call i h)
}.

(** Call number [i] came to its end and returned [r]. *)
Definition ended {X} (C : codec X) (calls : list (call X)) (h : list (nat * request)) (i : nat) (r : returned X)
    : Prop := exists c, calls !! i = Some c /\ runs (program C c) (of_call i h) r.

(** The call is given these bytes to store, or an item that is written as these bytes. *)
Definition uploads {X} (C : codec X) (c : call X) (bucket : list N) (t : artifact_type) (id : list N) (data : bytes)
    : Prop :=
  c = UploadRaw id bucket t data \/ exists item, c = Upload id bucket t item /\ serialize C item = Some data.

(** The call may change what is stored as this artifact in this bucket. *)
Definition writes {X} (c : call X) (bucket : list N) (t : artifact_type) (id : list N) : Prop :=
  (exists data, c = UploadRaw id bucket t data) \/ (exists item, c = Upload id bucket t item) \/
  (exists src, c = Copy id t src bucket).

(** A URI that names this bucket. *)
Definition in_bucket (uri : option parsed_uri) (bucket : list N) : Prop :=
  uri = Some (ParsedUri (chars "s3"%string) (Some bucket)).

(** The call reads this artifact from this bucket. *)
Inductive reads {X} : call X -> list N -> artifact_type -> list N -> Prop :=
| rd_raw id bucket t : reads (DownloadRaw id bucket t) bucket t id
| rd_uri id uri bucket t : in_bucket uri bucket -> reads (DownloadRawFromUri id uri t) bucket t id
| rd_program id bucket : reads (DownloadItem KindProgram id bucket) bucket ProgramArtifact id
| rd_stdin id bucket : reads (DownloadItem KindStdin id bucket) bucket StdinArtifact id
| rd_proof id bucket : reads (DownloadItem KindProof id bucket) bucket ProofArtifact id
| rd_program_uri id uri bucket : in_bucket uri bucket -> reads (DownloadItemFromUri KindProgram id uri) bucket ProgramArtifact id
| rd_stdin_uri id uri bucket : in_bucket uri bucket -> reads (DownloadItemFromUri KindStdin id uri) bucket StdinArtifact id
| rd_proof_uri id uri bucket : in_bucket uri bucket -> reads (DownloadItemFromUri KindProof id uri) bucket ProofArtifact id.

(** The call did not fail, and what it returned is these bytes, or the item they are read as. *)
Definition gives {X} (C : codec X) (r : returned X) (data : bytes) : Prop :=
  r = Data (DOk data) \/ exists x, r = Item (Some x) /\ deserialize C data = Some x.
(** The call failed. *)
Definition fails {X} (r : returned X) : Prop := r = Data DErr \/ r = Item None \/ r = Done false.

(** Where stored bytes come from: they were there at the start, or were uploaded as this artifact, or were
    copied from a bucket in which they were this artifact. *)
Inductive origin {X} (C : codec X) (calls : list (call X)) (s : store) (t : artifact_type) (id : list N) (data : bytes)
    : list N -> Prop :=
| or_start bucket : holds s bucket t id data -> origin C calls s t id data bucket
| or_upload bucket i c : calls !! i = Some c -> uploads C c bucket t id data -> origin C calls s t id data bucket
| or_copy bucket i src : calls !! i = Some (Copy id t src bucket) -> origin C calls s t id data src ->
    origin C calls s t id data bucket.

(** Call [i] makes all its requests before call [j] makes any. *)
Definition before (h : list (nat * request)) (i j : nat) : Prop :=
  exists h1 h2, h = h1 ++ h2 /\ of_call i h2 = [] /\ of_call j h1 = [].

(** The store is [x] at some moment of the history. *)
Definition moment (s : store) (h : list (nat * request)) (s' x : store) : Prop :=
  exists h1 h2, h = h1 ++ h2 /\ serves s h1 x /\ serves x h2 s'.

(** What a server for ranges of an artifact answers while the history takes place: each time, the range of
    what is stored at some moment of it. *)
Definition answers_in (s : store) (h : list (nat * request)) (s' : store) (bucket : list N) (t : artifact_type) (id : list N)
    (server : nat -> nat -> nat -> attempt) : Prop :=
  forall first last n data, server first last n = AData data ->
    exists x file, moment s h s' x /\ holds x bucket t id file /\ data = range file first last.
