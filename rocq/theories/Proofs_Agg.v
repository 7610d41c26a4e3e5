(** The proofs of the theorems and examples of [Props_Agg.v]. *)
From Verif Require Export AggFacts ToyTyped.
Open Scope N_scope.

Lemma C25_aggregate_is_true_proof E sha verify domain evs s pvs inputs out :
  forall (Henv : env_ok E) (Hreached : history E (full_new E domain) evs s) (Htyped : typed_full s)
    (Hinputs : Forall (usable_input E) inputs)
    (Hsound : Forall2 (fun b i => verify (sha b) = true -> stf_commit E i = Some b) pvs inputs)
    (Hout : aggregate_main sha verify pvs = Some out)
    (Hroot : pv_old_root out = full_root E s)
    (Hhash : collision_free (keccak E) (chain_strings E inputs s)),
  exists s' rs, run_batch E s (all_txs inputs) = (s', rs) /\ calm rs /\
    pv_new_root out = full_root E s' /\
    Some (pv_timestamp out) = si_timestamp <$> list.last inputs /\
    pv_receipts out = map sol_of_receipt (batch_receipts rs).
Proof.
  intros HE Hh Hts Hi Hsnd Ho Hr Hc.
  apply aggregate_spec in Ho as (steps & first & last & Hv & Hd & Hch & Hf & Hl & ->). cbn in Hr |- *.
  apply (chain_sound E inputs pvs steps s first last HE (history_ok E _ _ _ (new_ok E domain) Hh) Hts Hi);
    try assumption.
  clear -Hv Hsnd. induction Hsnd as [|b i pvs inputs Hb _ IH]; constructor.
  - apply Hb. now apply Forall_cons in Hv as [? _].
  - apply IH. now apply Forall_cons in Hv as [_ ?].
Qed.

Lemma C25_example_proof :
  history toy_env world0 (run_txs toy_env batch_a world0).1 world_a1 /\ typed_full world_a1 /\
  collision_free (keccak toy_env) (chain_strings toy_env [input_b; input_c] world_a1) /\
  exists pvs, checked_commits toy_env [input_b; input_c] = Some pvs /\
    Forall (usable_input toy_env) [input_b; input_c] /\
    Forall2 (fun b i => true = true -> stf_commit toy_env i = Some b) pvs [input_b; input_c] /\
    (fun out => (pv_old_root out =? full_root toy_env world_a1, length (pv_receipts out))) <$>
      aggregate_main toy_hash (fun _ => true) pvs = Some (true, 2%nat) /\
    aggregate_main toy_hash (fun _ => true) (rev pvs) = None.
Proof.
  split; [apply run_txs_history|]. split; [apply typed_fullb_ok; vm_compute; reflexivity|].
  split; [apply collision_freeb_ok; vm_compute; reflexivity|].
  assert (H : exists pvs, checked_commits toy_env [input_b; input_c] = Some pvs /\
    (fun out => (pv_old_root out =? full_root toy_env world_a1, length (pv_receipts out))) <$>
      aggregate_main toy_hash (fun _ => true) pvs = Some (true, 2%nat) /\
    aggregate_main toy_hash (fun _ => true) (rev pvs) = None)
    by (eexists; split; [vm_compute; reflexivity|split; vm_compute; reflexivity]).
  destruct H as (pvs & Hc & H1 & H2). exists pvs. destruct (checked_commits_ok _ _ _ Hc) as [Hu Hf]. auto.
Qed.
