(** Properties of the sparse storage and of the state-transition program.  The vocabulary is in
    [StfSpec.v].  The external functions [E] are arbitrary; collision resistance is assumed only of the
    finite, explicitly listed strings that were hashed. *)
From Verif Require Import Proofs_Stf.
Open Scope N_scope.

(** ** C15: a panic never reaches a published state *)

Theorem C15_panic_commits_nothing E domain evs s i :
  forall (Henv : env_ok E) (Hreached : history E (full_new E domain) evs s)
    (Htyped_s : typed_full s) (Htyped_i : typed_input i) (Hroot : full_root E s = si_root i)
    (Hhash : collision_free (keccak E) (stf_strings E i s))
    (Hpanic : Exists is_panic (run_batch E s (si_txs i)).2),
  stf_commit E i = None.
Proof. exact (C15_panic_commits_nothing_proof E domain evs s i). Qed.
Print Assumptions C15_panic_commits_nothing.

Theorem C15_published_is_clean E domain evs s i pv :
  forall (Henv : env_ok E) (Hreached : history E (full_new E domain) evs s)
    (Htyped_s : typed_full s) (Htyped_i : typed_input i) (Hroot : full_root E s = si_root i)
    (Hhash : collision_free (keccak E) (stf_strings E i s)) (Hcommit : stf_main E i = Some pv),
  exists s' rs, pv_new_root pv = full_root E s' /\
    spec_run E (contents s) (si_txs i) rs (contents s').
Proof. exact (C15_published_is_clean_proof E domain evs s i pv). Qed.
Print Assumptions C15_published_is_clean.

(** The same without a full ledger and without any assumption on the hash: a commitment means that no
    transaction panicked on the data proven by the input. *)
Theorem C15_commit_means_no_panic E i pv :
  forall (Hcommit : stf_main E i = Some pv),
  exists accts txns,
    recover (account_tree E) (si_accounts_root i) (si_account_proofs i) (vs_accounts (si_state i)) = Ok accts /\
    recover (request_tree E) (si_requests_root i) (si_request_proofs i) (vs_transactions (si_state i))
      = Ok txns /\
    calm (sparse_batch E (with_transactions txns (with_accounts accts (si_state i))) (si_txs i)).2.
Proof. exact (C15_commit_means_no_panic_proof E i pv). Qed.
Print Assumptions C15_commit_means_no_panic.

(** [execute] by itself is not atomic: this one panics after it has taken the fee. *)
Theorem C15_execute_atomic_refuted :
  exists E t s s' e, execute_full E t s = (s', ResPanic e) /\ ~ same_ledger s s' /\
    acc_balance <$> accounts s !! owner1 = Some 50 /\
    acc_balance <$> accounts s' !! owner1 = Some 47.
Proof. exact C15_execute_atomic_refuted_proof. Qed.
Print Assumptions C15_execute_atomic_refuted.

(** The batch panics in the middle. *)
Example C15_example :
  env_ok toy_env /\ history toy_env world0 (run_txs toy_env setup_txs world0).1 world1 /\
  typed_full world1 /\ typed_input panicking_input /\ full_root toy_env world1 = si_root panicking_input /\
  collision_free (keccak toy_env) (stf_strings toy_env panicking_input world1) /\
  Exists is_panic (run_batch toy_env world1 (si_txs panicking_input)).2.
Proof. exact C15_example_proof. Qed.

(** ** C21: the sparse storage only exposes proven data *)

Theorem C21_only_proven V (cfg : tree_cfg V) root proofs old s :
  forall (Hrecover : recover cfg root proofs old = Ok s),
  (forall p, p ∈ proofs ->
     sto_get (sparse_storage cfg) (mp_key p) s = Ok (mp_value p, s)) /\
  (forall k v, (forall p, p ∈ proofs -> tc_index cfg (mp_key p) <> tc_index cfg k) ->
     sto_get (sparse_storage cfg) k s = Err KeyNotAllowed /\
     sto_get_mut (sparse_storage cfg) k s = Err KeyNotAllowed /\
     sto_entry (sparse_storage cfg) k s = Err KeyNotAllowed /\
     sto_insert (sparse_storage cfg) k v s = Err KeyNotAllowed) /\
  (forall i v, (i, v) ∈ iter_raw s <->
     exists p, p ∈ proofs /\ tc_index cfg (mp_key p) = i /\ mp_value p = Some v).
Proof. exact (C21_only_proven_proof V cfg root proofs old s). Qed.
Print Assumptions C21_only_proven.

Theorem C21_accepts_iff_valid V (cfg : tree_cfg V) root proofs old :
  (exists s, recover cfg root proofs old = Ok s) <->
  Forall (fun p => verify_proof cfg root p = Ok tt) proofs /\
  NoDup (map (fun p => tc_index cfg (mp_key p)) proofs).
Proof. exact (C21_accepts_iff_valid_proof V cfg root proofs old). Qed.
Print Assumptions C21_accepts_iff_valid.

(** Writing to a proven key is allowed, is what later reads return, and leaves other keys alone. *)
Theorem C21_write_read V (cfg : tree_cfg V) root proofs old s p v k :
  forall (Hrecover : recover cfg root proofs old = Ok s) (Hproven : p ∈ proofs),
  exists s', sto_insert (sparse_storage cfg) (mp_key p) v s = Ok s' /\
    sto_get (sparse_storage cfg) (mp_key p) s' = Ok (Some v, s') /\
    (tc_index cfg k <> tc_index cfg (mp_key p) ->
     sparse_read cfg k s' =
     sparse_read cfg k s).
Proof. exact (C21_write_read_proof V cfg root proofs old s p v k). Qed.
Print Assumptions C21_write_read.

(** A present and an absent key, recovered into a storage that held other data. *)
Example C21_example :
  exists s, recover small_tree (merkle_root small_tree tree_a) proofs_a old_sparse = Ok s /\
    map mp_value proofs_a = [Some 50; None] /\
    sparse_read small_tree 5 s = Some (Some 50) /\
    sparse_read small_tree 6 s = Some None /\
    sto_get (sparse_storage small_tree) 9 s = Err KeyNotAllowed /\
    recover small_tree (merkle_root small_tree tree_a) (proofs_a ++ proofs_a) old_sparse
      = Err (DuplicateProof 5) /\
    recover small_tree (merkle_root small_tree tree_a)
      [MProof 5 (Some 51) (siblings small_tree (map_after small_tree ops_a) 4 0 5)] old_sparse
      = Err VerificationFailed.
Proof. eexists. split; [vm_compute; reflexivity|]. vm_compute. auto 10. Qed.

(** ** C22: running on proven data *)

Theorem C22_sparse_simulates_full E sp s txs sp' rs :
  forall (Hagree : agrees sp s) (Hrun : sparse_batch E sp txs = (sp', rs))
    (Hkeys : ResPanic KeyNotAllowed ∉ rs),
  exists s', run_batch E s txs = (s', rs) /\ agrees sp' s' /\
    known_accounts sp' = known_accounts sp /\ known_requests sp' = known_requests sp /\
    (forall k, k ∉ known_accounts sp -> accounts s' !! k = accounts s !! k) /\
    (forall j, j ∉ known_requests sp -> flags s' !! j = flags s !! j).
Proof. exact (C22_sparse_simulates_full_proof E sp s txs sp' rs). Qed.
Print Assumptions C22_sparse_simulates_full.

(** A missing key only shows up as a panic of its own kind, which full storage never produces. *)
Theorem C22_full_never_misses E s txs :
  ResPanic KeyNotAllowed ∉ (run_batch E s txs).2.
Proof. exact (C22_full_never_misses_proof E s txs). Qed.
Print Assumptions C22_full_never_misses.

(** Known are three accounts and the ids of the batch's messages. *)
Example C22_example :
  agrees view1 world1 /\ ResPanic KeyNotAllowed ∉ (sparse_batch toy_env view1 batch1).2 /\
  elements (known_accounts view1) = [alice; auctioneer1; bob] /\
  map (fun r => match r with ResOk _ => 0 | ResRevert _ => 1 | ResPanic _ => 2 end)
    (sparse_batch toy_env view1 batch1).2 = [0; 1; 0; 0] /\
  (execute_sparse toy_env (tx_deposit 5 105 2 owner1 77) view1).2 = ResPanic KeyNotAllowed.
Proof. exact C22_example_proof. Qed.

(** ** C23: a committed state transition is a true one *)

Theorem C23_commit_is_true E domain evs s i pv :
  forall (Henv : env_ok E) (Hreached : history E (full_new E domain) evs s)
    (Htyped_s : typed_full s) (Htyped_i : typed_input i) (Hroot : full_root E s = si_root i)
    (Hhash : collision_free (keccak E) (stf_strings E i s)) (Hcommit : stf_main E i = Some pv),
  exists s' rs, run_batch E s (si_txs i) = (s', rs) /\ calm rs /\
    pv_old_root pv = full_root E s /\ pv_new_root pv = full_root E s' /\
    pv_timestamp pv = si_timestamp i /\ pv_receipts pv = map sol_of_receipt (batch_receipts rs).
Proof. exact (C23_commit_is_true_proof E domain evs s i pv). Qed.
Print Assumptions C23_commit_is_true.

(** Two transfers, one of which reverts, a deposit and a withdrawal; the untrusted part of the input
    carries made-up account data. *)
Example C23_example :
  env_ok toy_env /\ history toy_env world0 (run_txs toy_env setup_txs world0).1 world1 /\
  typed_full world1 /\ typed_input input1 /\ full_root toy_env world1 = si_root input1 /\
  collision_free (keccak toy_env) (stf_strings toy_env input1 world1) /\
  exists pv, stf_main toy_env input1 = Some pv /\ length (pv_receipts pv) = 2%nat.
Proof. exact C23_example_proof. Qed.

(** ** C24: honest batches can be proven *)

Theorem C24_honest_commits E domain evs s i s' rs account_keys request_keys :
  forall (Hreached : history E (full_new E domain) evs s)
    (Hbatch : run_batch E s (si_txs i) = (s', rs)) (Hcalm : calm rs)
    (Hroots : si_root i = full_root E s /\
       si_accounts_root i = merkle_root (account_tree E) (vs_accounts s) /\
       si_requests_root i = merkle_root (request_tree E) (vs_transactions s))
    (Hcounters : vs_domain (si_state i) = vs_domain s /\ vs_tx_id (si_state i) = vs_tx_id s /\
       (vs_onchain_tx_id (si_state i), vs_onchain_block (si_state i), vs_onchain_log_index (si_state i))
       = cursor s)
    (Haccount_proofs : Forall2 (fun k p => (merkle_proof (account_tree E) k (vs_accounts s)).1 = Ok p)
       account_keys (si_account_proofs i))
    (Hrequest_proofs : Forall2 (fun k p => (merkle_proof (request_tree E) k (vs_transactions s)).1 = Ok p)
       request_keys (si_request_proofs i))
    (Haccounts_once : NoDup account_keys) (Hrequests_once : NoDup (map request_index request_keys))
    (Haccounts_all : forall k, k ∈ touched_accounts s' -> k ∈ account_keys)
    (Hrequests_all : forall k, k ∈ touched_requests s' -> k ∈ request_keys),
  stf_main E i =
  Some (StepPv (full_root E s) (full_root E s') (si_timestamp i) (map sol_of_receipt (batch_receipts rs))).
Proof. exact (C24_honest_commits_proof E domain evs s i s' rs account_keys request_keys). Qed.
Print Assumptions C24_honest_commits.

(** The input of the example is the one an honest node builds: it runs the batch with cleared tracking
    and takes the proofs of the touched keys.  It commits. *)
Example C24_example :
  let '(s', rs) := run_batch toy_env (cleared world1) batch1 in
  let account_keys := elements (touched_accounts s') in
  let request_keys := elements (touched_requests s') in
  bool_decide (length account_keys = 3%nat /\ length request_keys = 3%nat /\
    NoDup (map request_index request_keys)) = true /\
  forallb (fun r => match r with ResPanic _ => false | _ => true end) rs = true /\
  map (fun k => (merkle_proof (account_tree toy_env) k (vs_accounts world1)).1) account_keys
    = map Ok (si_account_proofs input1) /\
  pv_new_root <$> stf_main toy_env input1 = Some (full_root toy_env s').
Proof. vm_compute. auto. Qed.

(** ** C26: the state root binds the whole state *)

Theorem C26_root_binds E domain1 domain2 evs1 evs2 s1 s2 account_keys request_keys :
  forall (Henv : env_ok E)
    (Hreached1 : history E (full_new E domain1) evs1 s1)
    (Hreached2 : history E (full_new E domain2) evs2 s2)
    (Htyped1 : typed_full s1) (Htyped2 : typed_full s2)
    (Haccounts : forall k, is_Some (accounts s1 !! k) \/ is_Some (accounts s2 !! k) -> k ∈ account_keys)
    (Hrequests : forall j, is_Some (flags s1 !! j) \/ is_Some (flags s2 !! j) ->
       exists k, k ∈ request_keys /\ request_index k = j)
    (Hhash : collision_free (keccak E) (two_state_strings E s1 s2 account_keys request_keys))
    (Hroot : full_root E s1 = full_root E s2),
  same_ledger s1 s2.
Proof. exact (C26_root_binds_proof E domain1 domain2 evs1 evs2 s1 s2 account_keys request_keys). Qed.
Print Assumptions C26_root_binds.

(** Two ledgers that reached the same contents by different transactions. *)
Example C26_example :
  history toy_env world0 (run_txs toy_env path_a world0).1 world_a /\
  history toy_env world0 (run_txs toy_env path_b world0).1 world_b /\
  typed_full world_a /\ typed_full world_b /\
  (forall k, is_Some (accounts world_a !! k) \/ is_Some (accounts world_b !! k) -> k ∈ [alice; bob]) /\
  (forall j, is_Some (flags world_a !! j) \/ is_Some (flags world_b !! j) ->
     exists k, k ∈ @nil N /\ request_index k = j) /\
  collision_free (keccak toy_env) (two_state_strings toy_env world_a world_b [alice; bob] []) /\
  full_root toy_env world_a = full_root toy_env world_b /\
  full_root toy_env world_a <> full_root toy_env world1.
Proof. exact C26_example_proof. Qed.

(** ** C30: the storage back end does not influence execution *)

Theorem C30_same_data_same_execution E t s1 s2 :
  forall (Hsame : same_ledger s1 s2),
  (execute_full E t s1).2 = (execute_full E t s2).2 /\
  same_ledger (execute_full E t s1).1 (execute_full E t s2).1.
Proof. exact (C30_same_data_same_execution_proof E t s1 s2). Qed.
Print Assumptions C30_same_data_same_execution.

Theorem C30_like_a_plain_map E t s :
  execute_map E t (contents s) = (contents (execute_full E t s).1, (execute_full E t s).2).
Proof. apply execute_contents. apply surjective_pairing. Qed.
Print Assumptions C30_like_a_plain_map.

Theorem C30_touched_is_all E t s s' r :
  forall (Hexec : execute_full E t s = (s', r)),
  (forall k, k ∉ touched_accounts s' -> accounts s' !! k = accounts s !! k) /\
  (forall j, (forall k, k ∈ touched_requests s' -> request_index k <> j) -> flags s' !! j = flags s !! j) /\
  forall q, same_on (touched_accounts s') (touched_requests s') s q ->
    exists q', execute_full E t q = (q', r) /\
      same_on (touched_accounts s') (touched_requests s') s' q'.
Proof. apply execute_touched_only. Qed.
Print Assumptions C30_touched_is_all.

(** A transfer touches three of the five accounts; a ledger that shares only these gives the same
    result. *)
Example C30_example :
  exists s', execute_full toy_env transfer1 (cleared world1) = (s', ResOk None) /\
    elements (touched_accounts s') = [alice; auctioneer1; bob] /\
    is_Some (accounts world1 !! prover1) /\ is_Some (accounts world1 !! owner1).
Proof. exact C30_example_proof. Qed.
