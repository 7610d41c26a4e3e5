(** The proofs of the theorems and examples of [Props_Stf.v]. *)
From Verif Require Export StfFacts ToyTree ToyStf.
Open Scope N_scope.

Lemma C15_panic_commits_nothing_proof E domain evs s i :
  forall (Henv : env_ok E) (Hreached : history E (full_new E domain) evs s)
    (Htyped_s : typed_full s) (Htyped_i : typed_input i) (Hroot : full_root E s = si_root i)
    (Hhash : collision_free (keccak E) (stf_strings E i s))
    (Hpanic : Exists is_panic (run_batch E s (si_txs i)).2),
  stf_commit E i = None.
Proof.
  intros HE Hh Hts Hti Hr Hc Hp. unfold stf_commit. destruct (stf_main E i) as [pv|] eqn:Hm; [exfalso|reflexivity].
  pose proof (history_ok E _ _ _ (new_ok E domain) Hh) as Hs.
  pose proof (committed_true E HE s i pv Hs Hts Hti (eq_sym Hr) Hc Hm) as Ht.
  destruct (stf_true_sound E s i pv Ht Hs Hm) as (s' & rs & Hb & Hcalm & _).
  rewrite Hb in Hp. unfold calm in Hcalm. apply Exists_exists in Hp as (r & Hr1 & Hr2).
  rewrite Forall_forall in Hcalm. exact (Hcalm r Hr1 Hr2).
Qed.

Lemma C15_published_is_clean_proof E domain evs s i pv :
  forall (Henv : env_ok E) (Hreached : history E (full_new E domain) evs s)
    (Htyped_s : typed_full s) (Htyped_i : typed_input i) (Hroot : full_root E s = si_root i)
    (Hhash : collision_free (keccak E) (stf_strings E i s)) (Hcommit : stf_main E i = Some pv),
  exists s' rs, pv_new_root pv = full_root E s' /\
    spec_run E (contents s) (si_txs i) rs (contents s').
Proof.
  intros HE Hh Hts Hti Hr Hc Hm.
  pose proof (history_ok E _ _ _ (new_ok E domain) Hh) as Hs.
  pose proof (committed_true E HE s i pv Hs Hts Hti (eq_sym Hr) Hc Hm) as Ht.
  destruct (stf_true_sound E s i pv Ht Hs Hm) as (s' & rs & Hb & Hcalm & ->).
  exists s', rs. split; [reflexivity|]. now apply run_batch_spec.
Qed.

Lemma C15_commit_means_no_panic_proof E i pv :
  forall (Hcommit : stf_main E i = Some pv),
  exists accts txns,
    recover (account_tree E) (si_accounts_root i) (si_account_proofs i) (vs_accounts (si_state i)) = Ok accts /\
    recover (request_tree E) (si_requests_root i) (si_request_proofs i) (vs_transactions (si_state i))
      = Ok txns /\
    calm (sparse_batch E (with_transactions txns (with_accounts accts (si_state i))) (si_txs i)).2.
Proof.
  intros Hm. unfold stf_main in Hm. cbv zeta in Hm. destruct (negb _) in Hm; [discriminate|].
  destruct (recover (account_tree E) (si_accounts_root i) (si_account_proofs i) (vs_accounts (si_state i)))
    as [accts|] eqn:HA; [|discriminate].
  destruct (recover (request_tree E) (si_requests_root i) (si_request_proofs i)
    (vs_transactions (with_accounts accts (si_state i)))) as [txns|] eqn:HR; [|discriminate].
  exists accts, txns. split; [reflexivity|]. split; [exact HR|].
  destruct (stf_loop E (si_txs i) (with_transactions txns (with_accounts accts (si_state i))) [])
    as [[sp' rcs]|] eqn:Hl; [|discriminate].
  apply stf_loop_some in Hl as (rs & -> & Hc & _). exact Hc.
Qed.

Lemma C15_execute_atomic_refuted_proof :
  exists E t s s' e, execute_full E t s = (s', ResPanic e) /\ ~ same_ledger s s' /\
    acc_balance <$> accounts s !! owner1 = Some 50 /\
    acc_balance <$> accounts s' !! owner1 = Some 47.
Proof.
  destruct (exec_by toy_env bad_delegate world1 (ResPanic AddressDeserializationFailed)) as [s' Hs'];
    [vm_compute; reflexivity|].
  exists toy_env, bad_delegate, world1, s', AddressDeserializationFailed. split; [exact Hs'|].
  assert (Hb : acc_balance <$> accounts s' !! owner1 = Some 47).
  { change s' with (s', ResPanic AddressDeserializationFailed).1. rewrite <- Hs'. vm_compute. reflexivity. }
  assert (Ha : acc_balance <$> accounts world1 !! owner1 = Some 50) by (vm_compute; reflexivity).
  split; [|split; assumption].
  intros (_ & _ & _ & H & _). 
  assert (Hx : Some 50 = Some 47) by (rewrite <- Ha, H; exact Hb). clear - Hx. discriminate.
Qed.

Lemma C15_example_proof :
  env_ok toy_env /\ history toy_env world0 (run_txs toy_env setup_txs world0).1 world1 /\
  typed_full world1 /\ typed_input panicking_input /\ full_root toy_env world1 = si_root panicking_input /\
  collision_free (keccak toy_env) (stf_strings toy_env panicking_input world1) /\
  Exists is_panic (run_batch toy_env world1 (si_txs panicking_input)).2.
Proof.
  split; [apply toy_env_ok|]. split; [apply run_txs_history|].
  split; [apply typed_fullb_ok; vm_compute; reflexivity|].
  split; [apply typed_inputb_ok; vm_compute; reflexivity|]. split; [vm_compute; reflexivity|].
  split; [apply collision_freeb_ok; vm_compute; reflexivity|].
  vm_compute. right. left. exact I.
Qed.

Lemma C21_only_proven_proof V (cfg : tree_cfg V) root proofs old s :
  forall (Hrecover : recover cfg root proofs old = Ok s),
  (forall p, p ∈ proofs ->
     sto_get (sparse_storage cfg) (mp_key p) s = Ok (mp_value p, s)) /\
  (forall k v, (forall p, p ∈ proofs -> tc_index cfg (mp_key p) <> tc_index cfg k) ->
     sto_get (sparse_storage cfg) k s = Err KeyNotAllowed /\
     sto_get_mut (sparse_storage cfg) k s = Err KeyNotAllowed /\
     sto_entry (sparse_storage cfg) k s = Err KeyNotAllowed /\
     sto_insert (sparse_storage cfg) k v s = Err KeyNotAllowed) /\
  (forall i v, (i, v) ∈ iter_raw s <->
     exists p, p ∈ proofs /\ tc_index cfg (mp_key p) = i /\ mp_value p = Some v).
Proof.
  intros H. apply recover_spec in H as (_ & Hn & ->).
  destruct (recovered_spec cfg proofs Hn) as [Hw Hi]. split; [|split].
  - intros p Hp. cbn [sto_get sparse_storage]. unfold guarded.
    rewrite bool_decide_eq_true_2.
    + rewrite Hi. pose proof (proven_some cfg proofs p Hn Hp) as Hv. unfold proof_index in Hv. now rewrite Hv.
    + apply Hw. apply elem_of_list_fmap. now exists p.
  - intros k v Hk.
    assert (Hnot : tc_index cfg k ∉ sp_witnessed (recovered cfg proofs)).
    { rewrite Hw. intros Hin. apply elem_of_list_fmap in Hin as (p & Hp1 & Hp2).
      apply (Hk p Hp2). symmetry. exact Hp1. }
    cbn [sto_get sto_get_mut sto_entry sto_insert sparse_storage]. unfold guarded.
    rewrite bool_decide_eq_false_2 by exact Hnot. auto.
  - intros i v. rewrite iter_raw_elem, Hw, Hi. split.
    + intros [Hin Hv]. apply elem_of_list_fmap in Hin as (p & -> & Hp). exists p. split; [exact Hp|].
      split; [reflexivity|]. now rewrite (proven_some cfg proofs p Hn Hp) in Hv.
    + intros (p & Hp & <- & Hv). split; [apply elem_of_list_fmap; now exists p|].
      pose proof (proven_some cfg proofs p Hn Hp) as Hq. unfold proof_index in Hq. now rewrite Hq.
Qed.

Lemma C21_accepts_iff_valid_proof V (cfg : tree_cfg V) root proofs old :
  (exists s, recover cfg root proofs old = Ok s) <->
  Forall (fun p => verify_proof cfg root p = Ok tt) proofs /\
  NoDup (map (fun p => tc_index cfg (mp_key p)) proofs).
Proof.
  split.
  - intros [s H]. apply recover_spec in H as (H1 & H2 & _). now split.
  - intros [H1 H2]. exists (recovered cfg proofs). apply recover_spec. auto.
Qed.

Lemma C21_write_read_proof V (cfg : tree_cfg V) root proofs old s p v k :
  forall (Hrecover : recover cfg root proofs old = Ok s) (Hproven : p ∈ proofs),
  exists s', sto_insert (sparse_storage cfg) (mp_key p) v s = Ok s' /\
    sto_get (sparse_storage cfg) (mp_key p) s' = Ok (Some v, s') /\
    (tc_index cfg k <> tc_index cfg (mp_key p) ->
     sparse_read cfg k s' =
     sparse_read cfg k s).
Proof.
  intros H Hp. apply recover_spec in H as (_ & Hn & ->).
  destruct (recovered_spec cfg proofs Hn) as [Hw Hi].
  assert (Hin : tc_index cfg (mp_key p) ∈ sp_witnessed (recovered cfg proofs)).
  { apply Hw. apply elem_of_list_fmap. now exists p. }
  unfold sparse_read. cbn [sto_get sto_insert sparse_storage]. unfold guarded.
  rewrite bool_decide_eq_true_2 by exact Hin. eexists. split; [reflexivity|].
  cbn [sp_witnessed sp_inner]. rewrite bool_decide_eq_true_2 by exact Hin. split.
  - now rewrite lookup_insert.
  - intros Hne. destruct (bool_decide _); [|reflexivity]. rewrite lookup_insert_ne; [reflexivity|congruence].
Qed.

Lemma C22_sparse_simulates_full_proof E sp s txs sp' rs :
  forall (Hagree : agrees sp s) (Hrun : sparse_batch E sp txs = (sp', rs))
    (Hkeys : ResPanic KeyNotAllowed ∉ rs),
  exists s', run_batch E s txs = (s', rs) /\ agrees sp' s' /\
    known_accounts sp' = known_accounts sp /\ known_requests sp' = known_requests sp /\
    (forall k, k ∉ known_accounts sp -> accounts s' !! k = accounts s !! k) /\
    (forall j, j ∉ known_requests sp -> flags s' !! j = flags s !! j).
Proof.
  intros Ha Hb Hk. apply agrees_map in Ha.
  destruct (sparse_batch_full E txs sp s sp' rs Ha Hb Hk) as (s' & H1 & H2 & H3).
  exists s'. split; [exact H1|]. split; [now apply agrees_map|]. destruct H3. auto.
Qed.

Lemma C22_full_never_misses_proof E s txs :
  ResPanic KeyNotAllowed ∉ (run_batch E s txs).2.
Proof.
  revert s. induction txs as [|t txs IH]; intros s; cbn [run_batch].
  - apply not_elem_of_nil.
  - destruct (execute_full E t s) as [s1 r] eqn:He. specialize (IH s1).
    destruct (run_batch E s1 txs) as [s2 rs2]. cbn [snd] in *. apply not_elem_of_cons.
    split; [|exact IH]. apply not_eq_sym. eapply execute_full_key; exact He.
Qed.

Lemma C22_example_proof :
  agrees view1 world1 /\ ResPanic KeyNotAllowed ∉ (sparse_batch toy_env view1 batch1).2 /\
  elements (known_accounts view1) = [alice; auctioneer1; bob] /\
  map (fun r => match r with ResOk _ => 0 | ResRevert _ => 1 | ResPanic _ => 2 end)
    (sparse_batch toy_env view1 batch1).2 = [0; 1; 0; 0] /\
  (execute_sparse toy_env (tx_deposit 5 105 2 owner1 77) view1).2 = ResPanic KeyNotAllowed.
Proof.
  split; [|split; [|split; [|split]]]; try (vm_compute; reflexivity).
  - apply view_agrees.
  - apply calm_key. unfold calm. vm_compute. repeat constructor; auto.
Qed.

Lemma C23_commit_is_true_proof E domain evs s i pv :
  forall (Henv : env_ok E) (Hreached : history E (full_new E domain) evs s)
    (Htyped_s : typed_full s) (Htyped_i : typed_input i) (Hroot : full_root E s = si_root i)
    (Hhash : collision_free (keccak E) (stf_strings E i s)) (Hcommit : stf_main E i = Some pv),
  exists s' rs, run_batch E s (si_txs i) = (s', rs) /\ calm rs /\
    pv_old_root pv = full_root E s /\ pv_new_root pv = full_root E s' /\
    pv_timestamp pv = si_timestamp i /\ pv_receipts pv = map sol_of_receipt (batch_receipts rs).
Proof.
  intros HE Hh Hts Hti Hr Hc Hm.
  pose proof (history_ok E _ _ _ (new_ok E domain) Hh) as Hs.
  pose proof (committed_true E HE s i pv Hs Hts Hti (eq_sym Hr) Hc Hm) as Ht.
  destruct (stf_true_sound E s i pv Ht Hs Hm) as (s' & rs & Hb & Hcalm & ->).
  exists s', rs. repeat split; assumption.
Qed.

Lemma C23_example_proof :
  env_ok toy_env /\ history toy_env world0 (run_txs toy_env setup_txs world0).1 world1 /\
  typed_full world1 /\ typed_input input1 /\ full_root toy_env world1 = si_root input1 /\
  collision_free (keccak toy_env) (stf_strings toy_env input1 world1) /\
  exists pv, stf_main toy_env input1 = Some pv /\ length (pv_receipts pv) = 2%nat.
Proof.
  split; [apply toy_env_ok|]. split; [apply run_txs_history|].
  split; [apply typed_fullb_ok; vm_compute; reflexivity|].
  split; [apply typed_inputb_ok; vm_compute; reflexivity|]. split; [vm_compute; reflexivity|].
  split; [apply collision_freeb_ok; vm_compute; reflexivity|].
  eexists. split; vm_compute; reflexivity.
Qed.

Lemma C24_honest_commits_proof E domain evs s i s' rs account_keys request_keys :
  forall (Hreached : history E (full_new E domain) evs s)
    (Hbatch : run_batch E s (si_txs i) = (s', rs)) (Hcalm : calm rs)
    (Hroots : si_root i = full_root E s /\
       si_accounts_root i = merkle_root (account_tree E) (vs_accounts s) /\
       si_requests_root i = merkle_root (request_tree E) (vs_transactions s))
    (Hcounters : vs_domain (si_state i) = vs_domain s /\ vs_tx_id (si_state i) = vs_tx_id s /\
       (vs_onchain_tx_id (si_state i), vs_onchain_block (si_state i), vs_onchain_log_index (si_state i))
       = cursor s)
    (Haccount_proofs : Forall2 (fun k p => (merkle_proof (account_tree E) k (vs_accounts s)).1 = Ok p)
       account_keys (si_account_proofs i))
    (Hrequest_proofs : Forall2 (fun k p => (merkle_proof (request_tree E) k (vs_transactions s)).1 = Ok p)
       request_keys (si_request_proofs i))
    (Haccounts_once : NoDup account_keys) (Hrequests_once : NoDup (map request_index request_keys))
    (Haccounts_all : forall k, k ∈ touched_accounts s' -> k ∈ account_keys)
    (Hrequests_all : forall k, k ∈ touched_requests s' -> k ∈ request_keys),
  stf_main E i =
  Some (StepPv (full_root E s) (full_root E s') (si_timestamp i) (map sol_of_receipt (batch_receipts rs))).
Proof.
  intros Hh Hb Hc (R1 & R2 & R3) (C1 & C2 & C3) HpA HpR HnA HnR HA HR.
  pose proof (history_ok E _ _ _ (new_ok E domain) Hh) as Hs.
  apply (account_proofs_true E s Hs) in HpA as [HkA HfA].
  apply (request_proofs_true E s Hs) in HpR as [HkR HfR].
  unfold cursor in C3. apply pair_equal_spec in C3 as [C3 C6]. apply pair_equal_spec in C3 as [C4 C5].
  apply (stf_true_complete E s i s' rs); [|exact Hs|exact Hb|exact Hc| |].
  - rewrite <- HkA in HnA. rewrite <- HkR, map_map in HnR. constructor; assumption.
  - rewrite HkA. exact HA.
  - rewrite HkR. exact HR.
Qed.

Lemma C26_root_binds_proof E domain1 domain2 evs1 evs2 s1 s2 account_keys request_keys :
  forall (Henv : env_ok E)
    (Hreached1 : history E (full_new E domain1) evs1 s1)
    (Hreached2 : history E (full_new E domain2) evs2 s2)
    (Htyped1 : typed_full s1) (Htyped2 : typed_full s2)
    (Haccounts : forall k, is_Some (accounts s1 !! k) \/ is_Some (accounts s2 !! k) -> k ∈ account_keys)
    (Hrequests : forall j, is_Some (flags s1 !! j) \/ is_Some (flags s2 !! j) ->
       exists k, k ∈ request_keys /\ request_index k = j)
    (Hhash : collision_free (keccak E) (two_state_strings E s1 s2 account_keys request_keys))
    (Hroot : full_root E s1 = full_root E s2),
  same_ledger s1 s2.
Proof.
  intros HE H1 H2 T1 T2 HA HR Hc Hr. apply same_ledger_contents.
  apply (root_binds E HE s1 s2 account_keys request_keys); try assumption.
  - exact (history_ok E _ _ _ (new_ok E domain1) H1).
  - exact (history_ok E _ _ _ (new_ok E domain2) H2).
Qed.

Lemma C26_example_proof :
  history toy_env world0 (run_txs toy_env path_a world0).1 world_a /\
  history toy_env world0 (run_txs toy_env path_b world0).1 world_b /\
  typed_full world_a /\ typed_full world_b /\
  (forall k, is_Some (accounts world_a !! k) \/ is_Some (accounts world_b !! k) -> k ∈ [alice; bob]) /\
  (forall j, is_Some (flags world_a !! j) \/ is_Some (flags world_b !! j) ->
     exists k, k ∈ @nil N /\ request_index k = j) /\
  collision_free (keccak toy_env) (two_state_strings toy_env world_a world_b [alice; bob] []) /\
  full_root toy_env world_a = full_root toy_env world_b /\
  full_root toy_env world_a <> full_root toy_env world1.
Proof.
  split; [apply run_txs_history|]. split; [apply run_txs_history|].
  split; [apply typed_fullb_ok; vm_compute; reflexivity|].
  split; [apply typed_fullb_ok; vm_compute; reflexivity|].
  split; [|split; [|split; [apply collision_freeb_ok; vm_compute; reflexivity|
    split; [vm_compute; reflexivity|intros H; vm_compute in H; discriminate]]]].
  - intros k Hk.
    assert (Ha : map fst (map_to_list (accounts world_a)) = [alice; bob]) by (vm_compute; reflexivity).
    assert (Hb : map fst (map_to_list (accounts world_b)) = [alice; bob]) by (vm_compute; reflexivity).
    destruct Hk as [Hk|Hk]; [rewrite <- Ha|rewrite <- Hb]; now apply keys_listed.
  - intros j Hj.
    assert (Ha : map fst (map_to_list (flags world_a)) = []) by (vm_compute; reflexivity).
    assert (Hb : map fst (map_to_list (flags world_b)) = []) by (vm_compute; reflexivity).
    destruct Hj as [Hj|Hj]; apply keys_listed in Hj; [rewrite Ha in Hj|rewrite Hb in Hj];
      now apply elem_of_nil in Hj.
Qed.

Lemma C30_same_data_same_execution_proof E t s1 s2 :
  forall (Hsame : same_ledger s1 s2),
  (execute_full E t s1).2 = (execute_full E t s2).2 /\
  same_ledger (execute_full E t s1).1 (execute_full E t s2).1.
Proof.
  intros H. apply same_ledger_contents in H.
  destruct (execute_full E t s1) as [s1' r1] eqn:H1, (execute_full E t s2) as [s2' r2] eqn:H2.
  apply execute_contents in H1, H2. rewrite H in H1. rewrite H1 in H2.
  apply pair_equal_spec in H2 as [H3 H4]. cbn [fst snd]. split; [exact H4|].
  now apply same_ledger_contents.
Qed.

Lemma C30_example_proof :
  exists s', execute_full toy_env transfer1 (cleared world1) = (s', ResOk None) /\
    elements (touched_accounts s') = [alice; auctioneer1; bob] /\
    is_Some (accounts world1 !! prover1) /\ is_Some (accounts world1 !! owner1).
Proof.
  destruct (exec_by toy_env transfer1 (cleared world1) (ResOk None)) as [s' Hs']; [vm_compute; reflexivity|].
  exists s'. split; [exact Hs'|]. split; [|split; vm_compute; eauto].
  change s' with (s', ResOk (@None receipt)).1. rewrite <- Hs'. vm_compute. reflexivity.
Qed.
