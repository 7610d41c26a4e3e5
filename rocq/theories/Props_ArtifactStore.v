(** Properties of the artifact store: uploads, copies and downloads by many at once. *)
From Verif Require Import ToyArtifactStore.
Open Scope list_scope.

(** ** C94: what is downloaded is what was uploaded *)

(** Whatever calls are made at the same time and wherever they are stopped: a download fails or returns bytes
    that the store held, while it was used, as this artifact in this bucket, and that were there at the start,
    uploaded as this artifact, or copied from a bucket where the same is true. *)
Theorem C94_origin {X} (C : codec X) calls s h s' j c r bucket t id :
  forall (Hused : used C calls s h s') (Hcall : calls !! j = Some c) (Hreads : reads c bucket t id)
    (Hended : ended C calls h j r),
  fails r \/ exists data, gives C r data /\ origin C calls s t id data bucket /\
    exists x, moment s h s' x /\ holds x bucket t id data.
Proof. exact (download_proof C calls s h s' j c r bucket t id). Qed.
Print Assumptions C94_origin.

(** What was uploaded successfully, after the other calls that may change the artifact, is there at the end,
    and is what every later download returns unless it fails. *)
Theorem C94_latest {X} (C : codec X) calls s h s' i c bucket t id data :
  forall (Hused : used C calls s h s') (Hcall : calls !! i = Some c) (Huploads : uploads C c bucket t id data)
    (Hended : ended C calls h i (Done true))
    (Hlast : forall j c', j <> i -> calls !! j = Some c' -> writes c' bucket t id -> before h j i),
  holds s' bucket t id data /\
  forall j c' r, calls !! j = Some c' -> reads c' bucket t id -> before h i j -> ended C calls h j r ->
    fails r \/ gives C r data.
Proof. exact (latest_proof C calls s h s' i c bucket t id data). Qed.
Print Assumptions C94_latest.

(** A download whose bytes can be read fails only if each of its requests does: five of them, or one if it is
    given a URI. *)
Theorem C94_gives_up {X} (C : codec X) calls h j c r bucket t id :
  forall (Hcall : calls !! j = Some c) (Hreads : reads c bucket t id) (Hended : ended C calls h j r)
    (Hreadable : forall data key, Get bucket key (AData data) ∈ of_call j h -> exists x, deserialize C data = Some x)
    (Hfails : fails r),
  (forall bucket' key data, Get bucket' key (AData data) ∉ of_call j h) /\
  length (of_call j h) = match c with DownloadRaw _ _ _ | DownloadItem _ _ _ => 5%nat | _ => 1%nat end.
Proof. exact (gives_up_proof C calls h j c r bucket t id). Qed.
Print Assumptions C94_gives_up.

(** An artifact in a bucket is changed only by uploads of it to this bucket and by copies of it to this
    bucket: not by downloads, nor by what is done with other types, names or buckets. *)
Theorem C94_only_writers {X} (C : codec X) calls s h s' bucket t id :
  forall (Hused : used C calls s h s')
    (Hquiet : forall i c, calls !! i = Some c -> writes c bucket t id -> of_call i h = []) x
    (Hmoment : moment s h s' x) data,
  holds x bucket t id data <-> holds s bucket t id data.
Proof. exact (only_writers_proof C calls s h s' bucket t id). Qed.
Print Assumptions C94_only_writers.

(** After a successful copy the artifact is in the bucket: the one that was there before, or one that was in
    the other bucket meanwhile. *)
Theorem C94_copy {X} (C : codec X) calls s h s' i id t src dst :
  forall (Hused : used C calls s h s') (Hcall : calls !! i = Some (Copy id t src dst))
    (Hended : ended C calls h i (Done true))
    (Halone : forall j c, j <> i -> calls !! j = Some c -> writes c dst t id -> of_call j h = []),
  exists data, holds s' dst t id data /\
    (holds s dst t id data \/ exists x, moment s h s' x /\ holds x src t id data).
Proof. exact (copy_proof C calls s h s' i id t src dst). Qed.
Print Assumptions C94_copy.

(** If it was not there before, and nobody changes the original, the copy is equal to the original. *)
Theorem C94_copy_new {X} (C : codec X) calls s h s' i id t src dst :
  forall (Hused : used C calls s h s') (Hcall : calls !! i = Some (Copy id t src dst))
    (Hended : ended C calls h i (Done true))
    (Halone : forall j c, j <> i -> calls !! j = Some c -> writes c dst t id \/ writes c src t id -> of_call j h = [])
    (Hnew : forall data, ~ holds s dst t id data),
  exists data, holds s src t id data /\ holds s' src t id data /\ holds s' dst t id data.
Proof. exact (copy_new_proof C calls s h s' i id t src dst). Qed.
Print Assumptions C94_copy_new.

(** A parallel download, however its requests are mixed with the other calls, returns the artifact or fails
    because one of its requests does, if nobody changes the artifact meanwhile. *)
Theorem C94_parallel {X} (C : codec X) calls s h s' bucket t id file server get chunk concurrency rs arrivals :
  forall (Hused : used C calls s h s')
    (Hquiet : forall i c, calls !! i = Some c -> writes c bucket t id -> of_call i h = [])
    (Hholds : holds s bucket t id file) (Hanswers : answers_in s h s' bucket t id server)
    (Hchunk : (0 < chunk)%nat) (Hconcurrency : (0 < concurrency)%nat) (Hlarge : (chunk < length file)%nat)
    (Htasks : tasks server chunk (length file) concurrency = Some rs)
    (Harrivals : interleaving (map fst rs) arrivals),
  (all_succeed server chunk (length file) /\
     download_s3_par chunk server get (Z.of_nat (length file)) concurrency arrivals = DOk file) \/
  (~ all_succeed server chunk (length file) /\
     download_s3_par chunk server get (Z.of_nat (length file)) concurrency arrivals = DErr).
Proof. exact (parallel_proof C calls s h s' bucket t id file server get chunk concurrency rs arrivals). Qed.
Print Assumptions C94_parallel.

(** It is not the case that a parallel download returns what was stored at some moment: while the artifact is
    replaced by another of the same length, parts of both are put together. *)
Theorem C94_parallel_untorn_refuted :
  exists (calls : list (call N)) s h s' bucket t id old new server chunk concurrency rs arrivals result,
    used toy_codec calls s h s' /\ calls = [UploadRaw id bucket t new] /\ ended toy_codec calls h 0 (Done true) /\
    holds s bucket t id old /\ holds s' bucket t id new /\ length old = length new /\
    answers_in s h s' bucket t id server /\ (0 < chunk < length old)%nat /\ (0 < concurrency)%nat /\
    tasks server chunk (length old) concurrency = Some rs /\ interleaving (map fst rs) arrivals /\
    download_s3_par chunk server AFail (Z.of_nat (length old)) concurrency arrivals = DOk result /\
    forall x, moment s h s' x -> ~ holds x bucket t id result.
Proof. exact torn_refuted_proof. Qed.
Print Assumptions C94_parallel_untorn_refuted.

(** It is not the case that a parallel download returns every artifact that a plain one does: not an empty
    one. *)
Theorem C94_parallel_empty_refuted :
  exists (calls : list (call N)) s h s' bucket t id,
    used toy_codec calls s h s' /\ calls = [DownloadRaw id bucket t] /\ ended toy_codec calls h 0 (Data (DOk [])) /\
    holds s bucket t id [] /\
    forall chunk server concurrency arrivals, download_s3_par chunk server (AData []) 0 concurrency arrivals = DErr.
Proof. exact empty_parallel_refuted_proof. Qed.
Print Assumptions C94_parallel_empty_refuted.

(** It is not the case that after a successful copy both buckets have the same. *)
Theorem C94_copy_equal_refuted :
  exists (calls : list (call N)) s h s' id t src dst data data',
    used toy_codec calls s h s' /\ calls = [Copy id t src dst] /\ ended toy_codec calls h 0 (Done true) /\
    holds s' src t id data /\ holds s' dst t id data' /\ data <> data'.
Proof. exact copy_equal_refuted_proof. Qed.
Print Assumptions C94_copy_equal_refuted.

(** Nor that a copy leaves alone what is there: it is replaced if the request for its size fails. *)
Theorem C94_copy_keeps_refuted :
  exists (calls : list (call N)) s h s' id t src dst data data',
    used toy_codec calls s h s' /\ calls = [Copy id t src dst] /\ ended toy_codec calls h 0 (Done true) /\
    holds s dst t id data /\ holds s' dst t id data' /\ data <> data'.
Proof. exact copy_keeps_refuted_proof. Qed.
Print Assumptions C94_copy_keeps_refuted.

(** Nor that an upload that reports an error has changed nothing. *)
Theorem C94_failed_upload_refuted :
  exists (calls : list (call N)) s h s' id t bucket data data',
    used toy_codec calls s h s' /\ calls = [UploadRaw id bucket t data'] /\ ended toy_codec calls h 0 (Done false) /\
    holds s bucket t id data /\ holds s' bucket t id data' /\ data <> data'.
Proof. exact failed_upload_refuted_proof. Qed.
Print Assumptions C94_failed_upload_refuted.

(** Eight calls at once: two uploads of a program, the first of which reports an error, a copy of it, an upload
    of an input of the same name, and downloads of the program and of the copy. *)
Example C94_example :
  used toy_codec toy_store_calls ∅ toy_store_history toy_store_end /\
  ended toy_codec toy_store_calls toy_store_history 0 (Done true) /\
  uploads toy_codec (Upload toy_id toy_b1 ProgramArtifact 7%N) toy_b1 ProgramArtifact toy_id [7; 1]%N /\
  (forall j c, j <> 0%nat -> toy_store_calls !! j = Some c -> writes c toy_b1 ProgramArtifact toy_id -> before toy_store_history j 0) /\
  before toy_store_history 5 0 /\ ended toy_codec toy_store_calls toy_store_history 5 (Done false) /\
  ended toy_codec toy_store_calls toy_store_history 1 (Done true) /\
  (forall j c, j <> 1%nat -> toy_store_calls !! j = Some c -> writes c toy_b2 ProgramArtifact toy_id -> of_call j toy_store_history = []) /\
  ended toy_codec toy_store_calls toy_store_history 2 (Item (Some 7%N)) /\
  reads (X:=N) (DownloadItem KindProgram toy_id toy_b2) toy_b2 ProgramArtifact toy_id /\
  before toy_store_history 0 4 /\ ended toy_codec toy_store_calls toy_store_history 4 (Data (DOk [7; 1]%N)) /\
  reads (X:=N) (DownloadRawFromUri toy_id (Some (ParsedUri [115; 51]%N (Some toy_b1))) ProgramArtifact) toy_b1 ProgramArtifact toy_id.
Proof. exact C94_example_proof. Qed.

(** A copy to a bucket without the artifact. *)
Example C94_example_copy_new :
  used toy_codec toy_copy toy_one
    (map (pair 0%nat) [Head toy_b2 toy_kp None; Get toy_b1 toy_kp (AData [7; 1]%N); Put toy_b2 toy_kp [7; 1]%N true])
    (<[(toy_b2, toy_kp) := [7; 1]%N ]> toy_one) /\
  ended toy_codec toy_copy
    (map (pair 0%nat) [Head toy_b2 toy_kp None; Get toy_b1 toy_kp (AData [7; 1]%N); Put toy_b2 toy_kp [7; 1]%N true]) 0 (Done true) /\
  (forall data, ~ holds toy_one toy_b2 ProgramArtifact toy_id data).
Proof. exact toy_copy_new. Qed.

(** A parallel download of a program while an input of the same name is uploaded. *)
Example C94_example_parallel :
  (let s := <[(toy_b1, toy_kp) := toy_file]> (∅ : store) in
   let h := map (pair 0%nat) [Put toy_b1 toy_ks [9]%N true] in
   let s' := <[(toy_b1, toy_ks) := [9]%N ]> s in
   used toy_codec [UploadRaw toy_id toy_b1 StdinArtifact [9]%N] s h s' /\
   holds s toy_b1 ProgramArtifact toy_id toy_file /\ answers_in s h s' toy_b1 ProgramArtifact toy_id toy_server /\
   (forall i c, [UploadRaw (X:=N) toy_id toy_b1 StdinArtifact [9]%N] !! i = Some c -> writes c toy_b1 ProgramArtifact toy_id ->
      of_call i h = [])) /\
  (exists rs, tasks toy_server 4 11 3 = Some rs /\ interleaving (map fst rs) toy_arrivals).
Proof. split; [exact toy_quiet|exact toy_interleaving]. Qed.

(** A download that gives up after five requests. *)
Example C94_example_gives_up :
  ended toy_codec [DownloadItem KindProgram toy_id toy_b2] toy_failing 0 (Item None) /\
  reads (X:=N) (DownloadItem KindProgram toy_id toy_b2) toy_b2 ProgramArtifact toy_id /\
  (forall data key, Get toy_b2 key (AData data) ∈ of_call 0 toy_failing -> exists x, deserialize toy_codec data = Some x).
Proof. exact toy_failing_ended. Qed.
