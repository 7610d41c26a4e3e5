(** The proofs of the theorems and examples of [Props_Artifacts.v]. *)
From Verif Require Export ToyArtifacts.

Lemma C34_s3_proof file server get chunk concurrency rs arrivals :
  forall (Hhonest : honest file server) (Hchunk : (0 < chunk)%nat) (Hconcurrency : (0 < concurrency)%nat)
    (Hlarge : (chunk < length file)%nat)
    (Htasks : tasks server chunk (length file) concurrency = Some rs)
    (Harrivals : interleaving (map fst rs) arrivals),
  (all_succeed server chunk (length file) /\
     download_s3_par chunk server get (Z.of_nat (length file)) concurrency arrivals = DOk file) \/
  (~ all_succeed server chunk (length file) /\
     download_s3_par chunk server get (Z.of_nat (length file)) concurrency arrivals = DErr).
Proof.
  intros Hh Hc Hn Hl Ht Ha. unfold download_s3_par. rewrite Nat2Z.id.
  destruct (Z.leb_spec (Z.of_nat (length file)) 0); [lia|]. destruct (Nat.leb_spec (length file) chunk); [lia|].
  apply (download_chunks_spec file server chunk concurrency arrivals rs); auto; lia.
Qed.

Lemma C34_https_proof file server get chunk concurrency rs arrivals :
  forall (Hhonest : honest file server) (Hchunk : (0 < chunk)%nat) (Hconcurrency : (0 < concurrency)%nat)
    (Hlarge : (chunk < length file)%nat)
    (Htasks : tasks server chunk (length file) concurrency = Some rs)
    (Harrivals : interleaving (map fst rs) arrivals),
  (all_succeed server chunk (length file) /\
     download_https_par chunk server get true (Some (length file)) concurrency arrivals = DOk file) \/
  (~ all_succeed server chunk (length file) /\
     download_https_par chunk server get true (Some (length file)) concurrency arrivals = DErr).
Proof.
  intros Hh Hc Hn Hl Ht Ha. unfold download_https_par. destruct (Nat.leb_spec (length file) chunk); [lia|].
  apply (download_chunks_spec file server chunk concurrency arrivals rs); auto; lia.
Qed.

Lemma C34_whole_proof file server get chunk concurrency arrivals :
  forall (Hhonest : forall data, get = AData data -> data = file),
  ((0 < length file <= chunk)%nat ->
     (get = AData file /\ download_s3_par chunk server get (Z.of_nat (length file)) concurrency arrivals = DOk file) \/
     (get <> AData file /\ download_s3_par chunk server get (Z.of_nat (length file)) concurrency arrivals = DErr)) /\
  (forall ranges size, ranges = false \/ size = None \/ (size = Some (length file) /\ (length file <= chunk)%nat) ->
     (get = AData file /\ download_https_par chunk server get ranges size concurrency arrivals = DOk file) \/
     (get <> AData file /\ download_https_par chunk server get ranges size concurrency arrivals = DErr)).
Proof.
  intros Hg.
  assert (W : (get = AData file /\ whole get = DOk file) \/ (get <> AData file /\ whole get = DErr)).
  { destruct get as [| |d]; cbn [whole]; [now right|now right|]. left. now rewrite (Hg d eq_refl). }
  split.
  - intros Hs. unfold download_s3_par. rewrite Nat2Z.id.
    destruct (Z.leb_spec (Z.of_nat (length file)) 0); [lia|]. destruct (Nat.leb_spec (length file) chunk); [exact W|lia].
  - intros ranges size H. unfold download_https_par. destruct ranges, size as [n|]; try exact W.
    destruct H as [H|[H|[H Hs]]]; [discriminate|discriminate|]. injection H as ->.
    destruct (Nat.leb_spec (length file) chunk); [exact W|lia].
Qed.

Lemma C34_schedulable_proof server chunk size concurrency :
  forall (Hchunk : (0 < chunk)%nat) (Hsize : (0 < size)%nat),
  (0 < concurrency)%nat <->
  exists rs arrivals, tasks server chunk size concurrency = Some rs /\ interleaving (map fst rs) arrivals.
Proof.
  intros Hc Hs. rewrite <- (tasks_some server chunk size concurrency Hc Hs). split.
  - intros [rs H]. exists rs, (concat (map fst rs)). split; [exact H|apply interleaving_concat].
  - intros (rs & _ & H & _). eauto.
Qed.

Lemma C34_example_proof :
  honest toy_file toy_server /\ (exists rs, tasks toy_server 4 11 3 = Some rs /\ interleaving (map fst rs) toy_arrivals) /\
  download_s3_par 4 toy_server AFail 11 3 toy_arrivals = DOk toy_file /\
  download_https_par 4 toy_server AFail true (Some 11%nat) 3 toy_arrivals = DOk toy_file /\
  honest toy_file toy_broken /\
  download_s3_par 4 toy_broken AFail 11 3 [(0, range toy_file 0 3); (2, range toy_file 8 10)]%nat = DErr /\
  download_s3_par 16 toy_server (AData toy_file) 11 0 [] = DOk toy_file /\
  groups 4 11 2 = Some [[(0, 0)]; [(1, 4)]; [(2, 8)]]%nat /\ groups 2 11 2 = Some [[(0, 0); (1, 2); (2, 4)]; [(3, 6); (4, 8); (5, 10)]]%nat.
Proof.
  split; [exact toy_server_honest|]. split; [exact toy_interleaving|].
  repeat match goal with |- _ /\ _ => split end; try exact toy_broken_honest; vm_compute; reflexivity.
Qed.

Lemma C39_extract_key_proof uri type id :
  forall (Hid : ~ 47%N ∈ id),
  extract_artifact_name (uri ++ get_s3_key type id) = Some id /\ extract_artifact_name id = Some id.
Proof.
  intros H. unfold get_s3_key, extract_artifact_name. rewrite app_assoc, split_slash_app, split_slash_no by exact H. auto.
Qed.

Lemma C39_example_proof :
  ~ 47%N ∈ [97; 98]%N /\ get_s3_key ProgramArtifact [97; 98]%N = [112; 114; 111; 103; 114; 97; 109; 115; 47; 97; 98]%N /\
  extract_artifact_name ([115; 51; 58; 47; 47; 98; 47] ++ get_s3_key ProgramArtifact [97; 98])%N = Some [97; 98]%N /\
  get_s3_key ProofArtifact [97]%N <> get_s3_key ProgramArtifact [97]%N.
Proof.
  split; [rewrite !elem_of_cons, elem_of_nil; intros [H|[H|[]]]; discriminate|].
  repeat match goal with |- _ /\ _ => split end; vm_compute; try reflexivity. discriminate.
Qed.

Lemma C56_short_answer_noticed_refuted_proof :
  exists file server chunk concurrency rs arrivals result,
    (0 < chunk < length file)%nat /\ (0 < concurrency)%nat /\
    tasks server chunk (length file) concurrency = Some rs /\ interleaving (map fst rs) arrivals /\
    (exists first last data, server first last 0%nat = AData data /\ (last < length file)%nat /\
       length data <> (last + 1 - first)%nat) /\
    download_s3_par chunk server AFail (Z.of_nat (length file)) concurrency arrivals = DOk result /\ result <> file.
Proof.
  exists toy_file, toy_short, 4%nat, 1%nat. eexists _, _, _.
  split; [vm_compute; lia|]. split; [lia|]. split; [vm_compute; reflexivity|]. split; [apply interleaving_concat|].
  split; [exists 4%nat, 7%nat, [14; 15; 16]%N; vm_compute; repeat split; lia|].
  split; [vm_compute; reflexivity|]. vm_compute. discriminate.
Qed.

Lemma C56_no_panic_refuted_proof :
  exists file server chunk concurrency rs arrivals,
    (0 < chunk < length file)%nat /\ (0 < concurrency)%nat /\
    tasks server chunk (length file) concurrency = Some rs /\ interleaving (map fst rs) arrivals /\
    (forall first last n, server first last n = AData file) /\
    download_https_par chunk server (AData file) true (Some (length file)) concurrency arrivals = DPanic.
Proof.
  exists toy_file, toy_all, 4%nat, 1%nat. eexists _, _.
  split; [vm_compute; lia|]. split; [lia|]. split; [vm_compute; reflexivity|]. split; [apply interleaving_concat|].
  split; [reflexivity|]. vm_compute. reflexivity.
Qed.

Lemma C57_first_success_proof get :
  (exists n data, (n < 5)%nat /\ get n = AData data /\ (forall m d, (m < n)%nat -> get m <> AData d) /\
     download_raw get = DOk data) \/
  ((forall n d, (n < 5)%nat -> get n <> AData d) /\ download_raw get = DErr).
Proof.
  unfold download_raw. pose proof (download_retry_spec get max_attempts 0) as H. unfold max_attempts in *.
  destruct (download_retry get 5 0) as [data| |]; [left|right|destruct H].
  - destruct H as (m & Hm & Hd & Hj). exists m, data. split; [lia|]. split; [exact Hd|]. split; [|reflexivity].
    intros j d Hjm. apply Hj. lia.
  - split; [|reflexivity]. intros n d Hn. apply H. lia.
Qed.
