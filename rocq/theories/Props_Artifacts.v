(** Properties of artifacts: storage keys and downloads. *)
From Verif Require Import Proofs_Artifacts.

(** ** C34: a parallel download gives the file, under every schedule *)

(** In chunks, whatever the order in which the chunks arrive: the file, if the requests succeed; an error, if
    one of them fails five times or while its body is read.  Never other bytes, never a panic. *)
Theorem C34_s3 file server get chunk concurrency rs arrivals :
  forall (Hhonest : honest file server) (Hchunk : (0 < chunk)%nat) (Hconcurrency : (0 < concurrency)%nat)
    (Hlarge : (chunk < length file)%nat)
    (Htasks : tasks server chunk (length file) concurrency = Some rs)
    (Harrivals : interleaving (map fst rs) arrivals),
  (all_succeed server chunk (length file) /\
     download_s3_par chunk server get (Z.of_nat (length file)) concurrency arrivals = DOk file) \/
  (~ all_succeed server chunk (length file) /\
     download_s3_par chunk server get (Z.of_nat (length file)) concurrency arrivals = DErr).
Proof. exact (C34_s3_proof file server get chunk concurrency rs arrivals). Qed.
Print Assumptions C34_s3.

Theorem C34_https file server get chunk concurrency rs arrivals :
  forall (Hhonest : honest file server) (Hchunk : (0 < chunk)%nat) (Hconcurrency : (0 < concurrency)%nat)
    (Hlarge : (chunk < length file)%nat)
    (Htasks : tasks server chunk (length file) concurrency = Some rs)
    (Harrivals : interleaving (map fst rs) arrivals),
  (all_succeed server chunk (length file) /\
     download_https_par chunk server get true (Some (length file)) concurrency arrivals = DOk file) \/
  (~ all_succeed server chunk (length file) /\
     download_https_par chunk server get true (Some (length file)) concurrency arrivals = DErr).
Proof. exact (C34_https_proof file server get chunk concurrency rs arrivals). Qed.
Print Assumptions C34_https.

(** Not in chunks: one request for the file, if it is small or the server does not support ranges. *)
Theorem C34_whole file server get chunk concurrency arrivals :
  forall (Hhonest : forall data, get = AData data -> data = file),
  ((0 < length file <= chunk)%nat ->
     (get = AData file /\ download_s3_par chunk server get (Z.of_nat (length file)) concurrency arrivals = DOk file) \/
     (get <> AData file /\ download_s3_par chunk server get (Z.of_nat (length file)) concurrency arrivals = DErr)) /\
  (forall ranges size, ranges = false \/ size = None \/ (size = Some (length file) /\ (length file <= chunk)%nat) ->
     (get = AData file /\ download_https_par chunk server get ranges size concurrency arrivals = DOk file) \/
     (get <> AData file /\ download_https_par chunk server get ranges size concurrency arrivals = DErr)).
Proof. exact (C34_whole_proof file server get chunk concurrency arrivals). Qed.
Print Assumptions C34_whole.

(** The tasks exist, and can be scheduled, whenever the limit on tasks is not zero. *)
Theorem C34_schedulable server chunk size concurrency :
  forall (Hchunk : (0 < chunk)%nat) (Hsize : (0 < size)%nat),
  (0 < concurrency)%nat <->
  exists rs arrivals, tasks server chunk size concurrency = Some rs /\ interleaving (map fst rs) arrivals.
Proof. exact (C34_schedulable_proof server chunk size concurrency). Qed.
Print Assumptions C34_schedulable.

(** No position is asked for twice or left out: the ranges of the chunks, in order, are the positions of the
    file, and the groups given to the tasks are these chunks. *)
Theorem C34_every_position_once chunk size concurrency gs :
  forall (Hchunk : (0 < chunk)%nat) (Hgroups : groups chunk size concurrency = Some gs),
  flat_map (fun '(i, first) => seq first (last_of chunk size first + 1 - first)) (concat gs) = seq 0 size.
Proof. intros Hc Hg. rewrite (groups_concat _ _ _ _ Hg). exact (ranges_cover chunk size Hc). Qed.
Print Assumptions C34_every_position_once.

(** Eleven bytes in chunks of four, the second of which is served at the third attempt. *)
Example C34_example :
  honest toy_file toy_server /\ (exists rs, tasks toy_server 4 11 3 = Some rs /\ interleaving (map fst rs) toy_arrivals) /\
  download_s3_par 4 toy_server AFail 11 3 toy_arrivals = DOk toy_file /\
  download_https_par 4 toy_server AFail true (Some 11%nat) 3 toy_arrivals = DOk toy_file /\
  honest toy_file toy_broken /\
  download_s3_par 4 toy_broken AFail 11 3 [(0, range toy_file 0 3); (2, range toy_file 8 10)]%nat = DErr /\
  download_s3_par 16 toy_server (AData toy_file) 11 0 [] = DOk toy_file /\
  groups 4 11 2 = Some [[(0, 0)]; [(1, 4)]; [(2, 8)]]%nat /\ groups 2 11 2 = Some [[(0, 0); (1, 2); (2, 4)]; [(3, 6); (4, 8); (5, 10)]]%nat.
Proof. exact C34_example_proof. Qed.

(** ** C39: keys and ids *)

Theorem C39_key_determines type id type' id' :
  forall (Hsame : get_s3_key type id = get_s3_key type' id'), type = type' /\ id = id'.
Proof. exact (key_inj type id type' id'). Qed.
Print Assumptions C39_key_determines.

(** The name extracted from a URI that ends in [/id] is [id]. *)
Theorem C39_extract_key uri type id :
  forall (Hid : ~ 47%N ∈ id),
  extract_artifact_name (uri ++ get_s3_key type id) = Some id /\ extract_artifact_name id = Some id.
Proof. exact (C39_extract_key_proof uri type id). Qed.
Print Assumptions C39_extract_key.

(** Extraction always gives the part after the last [/], or all if there is none. *)
Theorem C39_extract_total uri :
  exists name, extract_artifact_name uri = Some name /\ ~ 47%N ∈ name /\
    (uri = name \/ exists before, uri = before ++ 47%N :: name).
Proof. exact (extract_total uri). Qed.
Print Assumptions C39_extract_total.

(** The key of the program "ab" is "programs/ab". *)
Example C39_example :
  ~ 47%N ∈ [97; 98]%N /\ get_s3_key ProgramArtifact [97; 98]%N = [112; 114; 111; 103; 114; 97; 109; 115; 47; 97; 98]%N /\
  extract_artifact_name ([115; 51; 58; 47; 47; 98; 47] ++ get_s3_key ProgramArtifact [97; 98])%N = Some [97; 98]%N /\
  get_s3_key ProofArtifact [97]%N <> get_s3_key ProgramArtifact [97]%N.
Proof. exact C39_example_proof. Qed.

(** ** C56: wrong answers to range requests *)

(** It is not the case that data of a wrong length is noticed: one byte is missing, zeros are returned in its
    place, and the download reports success. *)
Theorem C56_short_answer_noticed_refuted :
  exists file server chunk concurrency rs arrivals result,
    (0 < chunk < length file)%nat /\ (0 < concurrency)%nat /\
    tasks server chunk (length file) concurrency = Some rs /\ interleaving (map fst rs) arrivals /\
    (exists first last data, server first last 0%nat = AData data /\ (last < length file)%nat /\
       length data <> (last + 1 - first)%nat) /\
    download_s3_par chunk server AFail (Z.of_nat (length file)) concurrency arrivals = DOk result /\ result <> file.
Proof. exact C56_short_answer_noticed_refuted_proof. Qed.
Print Assumptions C56_short_answer_noticed_refuted.

(** A server that answers a range request with the whole file makes the download panic. *)
Theorem C56_no_panic_refuted :
  exists file server chunk concurrency rs arrivals,
    (0 < chunk < length file)%nat /\ (0 < concurrency)%nat /\
    tasks server chunk (length file) concurrency = Some rs /\ interleaving (map fst rs) arrivals /\
    (forall first last n, server first last n = AData file) /\
    download_https_par chunk server (AData file) true (Some (length file)) concurrency arrivals = DPanic.
Proof. exact C56_no_panic_refuted_proof. Qed.
Print Assumptions C56_no_panic_refuted.

(** ** C57: a retried download *)

(** The result is that of the first of five attempts that gives data; an error, only if none does. *)
Theorem C57_first_success get :
  (exists n data, (n < 5)%nat /\ get n = AData data /\ (forall m d, (m < n)%nat -> get m <> AData d) /\
     download_raw get = DOk data) \/
  ((forall n d, (n < 5)%nat -> get n <> AData d) /\ download_raw get = DErr).
Proof. exact (C57_first_success_proof get). Qed.
Print Assumptions C57_first_success.

Example C57_example :
  download_raw (fun n => if (n <? 4)%nat then ABodyFail else AData [7%N]) = DOk [7%N] /\
  download_raw (fun n => if (n <? 5)%nat then AFail else AData [7%N]) = DErr.
Proof. split; vm_compute; reflexivity. Qed.
