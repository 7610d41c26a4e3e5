(** The artifact store, crates/network/artifacts/src/lib.rs: uploads, copies and downloads as requests to a
    store that others use at the same time.

    The store serves one request after the other and always answers from what it holds (the documented
    consistency of S3); requests may fail at any time, and an upload that is reported as failed may have taken
    effect.  Regions, the cache of clients (420-453) and waiting are left out: the repeated attempts inside the
    client library count as one request. *)
From Coq Require Import (notations) String.
From Verif Require Export Artifacts Flow.
Open Scope flow_scope.

(** Requests with their answers: [head_object] with the length if it succeeds (358, 487-493 of
    crates/network/artifacts/src/lib.rs), [get_object] (363-370, 463-472), [put_object] with whether it
    succeeds (372-379, 738-745), and a request to a web server (578-591). *)
Inductive request : Type :=
| Head (bucket key : list N) (answer : option Z)
| Get (bucket key : list N) (answer : attempt)
| Put (bucket key : list N) (data : bytes) (answer : bool)
| Web (answer : attempt).

(** How items are turned into bytes and back ([bincode::serialize], [bincode::deserialize],
    crates/network/artifacts/src/lib.rs 91, 222, 239, 256, 273, 290, 307). *)
Record codec (X : Type) : Type := Codec {
  serialize : X -> option bytes;
  deserialize : bytes -> option X
}.
Arguments Codec {X} _ _.
Arguments serialize {X} _ _.
Arguments deserialize {X} _ _.

(** A URI as parsed by [Url::parse]: its scheme and its host
    (crates/network/artifacts/src/lib.rs 160-164, 193-197). *)
Record parsed_uri : Type := ParsedUri { pu_scheme : list N; pu_host : option (list N) }.

(** [upload_file], crates/network/artifacts/src/lib.rs 727-748. *)
Definition upload_file (bucket id : list N) (t : artifact_type) (data : bytes) : flow request bool :=
  ask (Put bucket (get_s3_key t id) data).

(** [Artifact::upload], crates/network/artifacts/src/lib.rs 83-93. *)
Definition upload {X} (C : codec X) (id bucket : list N) (t : artifact_type) (item : X) : flow request bool :=
  match serialize C item with
  | Some data => upload_file bucket id t data
  | None => Ret false
  end.

(** [Artifact::upload_raw], crates/network/artifacts/src/lib.rs 321-330. *)
Definition upload_raw (id bucket : list N) (t : artifact_type) (data : bytes) : flow request bool :=
  upload_file bucket id t data.

(** [Artifact::copy], crates/network/artifacts/src/lib.rs 344-382.  The body is passed on while it is read; if
    it cannot be read the upload fails. *)
Definition copy (id : list N) (t : artifact_type) (src dst : list N) : flow request bool :=
  let key := get_s3_key t id in
  ask! there := ask (Head dst key) in
  match there with
  | Some _ => Ret true
  | None =>
      ask! got := ask (Get src key) in
      match got with
      | AData body => ask (Put dst key body)
      | AFail | ABodyFail => Ret false
      end
  end.

(** [download_s3_file], crates/network/artifacts/src/lib.rs 455-475. *)
Definition download_s3_file (bucket id : list N) (t : artifact_type) : flow request download :=
  ask! answer := ask (Get bucket (get_s3_key t id)) in Ret (whole answer).

(** The loop of [Artifact::download_raw], crates/network/artifacts/src/lib.rs 118-140. *)
Fixpoint download_loop (left : nat) (bucket id : list N) (t : artifact_type) : flow request download :=
  match left with
  | O => Ret DErr
  | S left' =>
      ask! r := download_s3_file bucket id t in
      match r with
      | DOk data => Ret (DOk data)
      | DErr | DPanic => download_loop left' bucket id t
      end
  end.

(** [Artifact::download_raw], crates/network/artifacts/src/lib.rs 105-141. *)
Definition download_stored (id bucket : list N) (t : artifact_type) : flow request download :=
  download_loop max_attempts bucket id t.

(** The schemes, crates/network/artifacts/src/lib.rs 162, 168. *)
Definition scheme_s3 : list N := chars "s3"%string.
(** crates/network/artifacts/src/lib.rs 168. *)
Definition scheme_https : list N := chars "https"%string.

(** [Artifact::download_raw_from_uri], crates/network/artifacts/src/lib.rs 154-171; [None] is a URI that cannot
    be parsed. *)
Definition download_raw_from_uri (id : list N) (uri : option parsed_uri) (t : artifact_type)
    : flow request download :=
  match uri with
  | None => Ret DErr
  | Some u =>
      if bool_decide (pu_scheme u = scheme_s3) then
        match pu_host u with
        | Some bucket => download_s3_file bucket id t
        | None => Ret DErr
        end
      else if bool_decide (pu_scheme u = scheme_https) then
        ask! answer := ask Web in Ret (whole answer)
      else Ret DErr
  end.

(** Which of the downloads of an item: [download_program], [download_stdin], [download_proof]
    (crates/network/artifacts/src/lib.rs 216-309). *)
Inductive item_kind : Type := KindProgram | KindStdin | KindProof.

(** The artifact type of each, crates/network/artifacts/src/lib.rs 221, 238, 255, 272, 289, 306. *)
Definition kind_type (k : item_kind) : artifact_type :=
  match k with
  | KindProgram => ProgramArtifact
  | KindStdin => StdinArtifact
  | KindProof => ProofArtifact
  end.

(** The item in what was downloaded, crates/network/artifacts/src/lib.rs 221-222, 238-239, 255-256, 272-273,
    289-290, 306-307. *)
Definition item_of {X} (C : codec X) (d : download) : option X :=
  match d with
  | DOk data => deserialize C data
  | DErr | DPanic => None
  end.

(** [download_program], [download_stdin], [download_proof], crates/network/artifacts/src/lib.rs 216-223,
    250-257, 284-291. *)
Definition download_item {X} (C : codec X) (k : item_kind) (id bucket : list N) : flow request (option X) :=
  ask! d := download_stored id bucket (kind_type k) in Ret (item_of C d).

(** [download_program_from_uri] and its like, crates/network/artifacts/src/lib.rs 233-240, 267-274, 301-308. *)
Definition download_item_from_uri {X} (C : codec X) (k : item_kind) (id : list N) (uri : option parsed_uri)
    : flow request (option X) :=
  ask! d := download_raw_from_uri id uri (kind_type k) in Ret (item_of C d).

(** The calls of the library, other than parallel downloads (crates/network/artifacts/src/lib.rs 71-382). *)
Inductive call (X : Type) : Type :=
| Upload (id bucket : list N) (t : artifact_type) (item : X)
| UploadRaw (id bucket : list N) (t : artifact_type) (data : bytes)
| Copy (id : list N) (t : artifact_type) (src dst : list N)
| DownloadRaw (id bucket : list N) (t : artifact_type)
| DownloadRawFromUri (id : list N) (uri : option parsed_uri) (t : artifact_type)
| DownloadItem (k : item_kind) (id bucket : list N)
| DownloadItemFromUri (k : item_kind) (id : list N) (uri : option parsed_uri).
Arguments Upload {X} id bucket t item.
Arguments UploadRaw {X} id bucket t data.
Arguments Copy {X} id t src dst.
Arguments DownloadRaw {X} id bucket t.
Arguments DownloadRawFromUri {X} id uri t.
Arguments DownloadItem {X} k id bucket.
Arguments DownloadItemFromUri {X} k id uri.

(** What a call returns: whether it succeeded, bytes, or an item
    (the result types in crates/network/artifacts/src/lib.rs 71-382). *)
Inductive returned (X : Type) : Type :=
| Done (ok : bool)
| Data (d : download)
| Item (x : option X).
Arguments Done {X} ok.
Arguments Data {X} d.
Arguments Item {X} x.

(** The program of each call, crates/network/artifacts/src/lib.rs 71-382. *)
Definition program {X} (C : codec X) (c : call X) : flow request (returned X) :=
  match c with
  | Upload id bucket t item => ask! ok := upload C id bucket t item in Ret (Done ok)
  | UploadRaw id bucket t data => ask! ok := upload_raw id bucket t data in Ret (Done ok)
  | Copy id t src dst => ask! ok := copy id t src dst in Ret (Done ok)
  | DownloadRaw id bucket t => ask! d := download_stored id bucket t in Ret (Data d)
  | DownloadRawFromUri id uri t => ask! d := download_raw_from_uri id uri t in Ret (Data d)
  | DownloadItem k id bucket => ask! x := download_item C k id bucket in Ret (Item x)
  | DownloadItemFromUri k id uri => ask! x := download_item_from_uri C k id uri in Ret (Item x)
  end.
