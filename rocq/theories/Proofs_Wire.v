(** The proofs of the theorems and examples of [Props_Wire.v]. *)
From Verif Require Export WireFacts Proofs_Stf Proofs_Agg.
Open Scope N_scope.

Lemma C65_step_bytes_proof E domain evs s i b :
  forall (Henv : env_ok E) (Hreached : history E (full_new E domain) evs s)
    (Htyped_s : typed_full s) (Htyped_i : typed_input i) (Hroot : full_root E s = si_root i)
    (Hhash : collision_free (keccak E) (stf_strings E i s)) (Hcommit : stf_commit E i = Some b),
  exists s' rs, spec_run E (contents s) (si_txs i) rs (contents s') /\
    b = solidity (step_value (state_commitment E s) (state_commitment E s') (si_timestamp i)
                    (batch_receipts rs)).
Proof.
  intros HE Hh Hts Hti Hr Hc Hb. unfold stf_commit in Hb.
  destruct (stf_main E i) as [pv|] eqn:Hm; [|discriminate].
  cbn [fmap option_fmap option_map] in Hb. injection Hb as <-.
  pose proof (history_ok E _ _ _ (new_ok E domain) Hh) as Hs.
  pose proof (committed_true E HE s i pv Hs Hts Hti (eq_sym Hr) Hc Hm) as Ht.
  destruct (stf_true_sound E s i pv Ht Hs Hm) as (s' & rs & Hrun & Hcalm & ->).
  exists s', rs. split; [now apply run_batch_spec|].
  pose proof (run_batch_ok E _ _ _ _ Hs Hrun) as Hs'.
  rewrite step_encode, <- !full_root_commitment by assumption. reflexivity.
Qed.

Lemma C65_aggregate_bytes_proof E sha verify domain evs s pvs inputs b out :
  forall (Henv : env_ok E) (Hreached : history E (full_new E domain) evs s) (Htyped : typed_full s)
    (Hinputs : Forall (usable_input E) inputs)
    (Hsound : Forall2 (fun b i => verify (sha b) = true -> stf_commit E i = Some b) pvs inputs)
    (Hout : aggregate_main sha verify pvs = Some out)
    (Hroot : pv_old_root out = full_root E s)
    (Hhash : collision_free (keccak E) (chain_strings E inputs s))
    (Hcommit : aggregate_commit sha verify pvs = Some b),
  exists s' rs ts, run_batch E s (all_txs inputs) = (s', rs) /\ calm rs /\
    si_timestamp <$> list.last inputs = Some ts /\
    b = solidity (step_value (state_commitment E s) (state_commitment E s') ts (batch_receipts rs)).
Proof.
  intros HE Hh Hts Hi Hsound Hout Hr Hc Hb.
  destruct (C25_aggregate_is_true_proof E sha verify domain evs s pvs inputs out HE Hh Hts Hi Hsound Hout Hr Hc)
    as (s' & rs & Hrun & Hcalm & Hnew & Hlast & Hrec).
  pose proof (history_ok E _ _ _ (new_ok E domain) Hh) as Hs.
  pose proof (run_batch_ok E _ _ _ _ Hs Hrun) as Hs'.
  exists s', rs, (pv_timestamp out). split; [exact Hrun|]. split; [exact Hcalm|]. split; [now symmetry|].
  unfold aggregate_commit in Hb. rewrite Hout in Hb. cbn [fmap option_fmap option_map] in Hb. injection Hb as <-.
  rewrite step_encode, <- !full_root_commitment by assumption.
  rewrite <- Hr, <- Hnew, <- Hrec. now destruct out.
Qed.

Lemma C66_root_is_commitment_proof E domain evs s :
  forall (Hreached : history E (full_new E domain) evs s), full_root E s = state_commitment E s.
Proof.
  intros Hh. apply full_root_commitment. exact (history_ok E _ _ _ (new_ok E domain) Hh).
Qed.

Lemma C64_example_proof :
  forallb typed_messageb (messages_of clear2) = true /\
  length (messages_of clear2) = 5%nat /\
  (let m := MSettle (SettleBody 300 [1; 2] [3] [] (-1)%Z) in
   typed_message m /\
   encode_message m = [8; 172; 2; 18; 2; 1; 2; 26; 1; 3; 40; 255; 255; 255; 255; 255; 255; 255; 255; 255; 1] /\
   read_message (encode_message m) =
     Some [(1, Varint 300); (2, Delimited [1; 2]); (3, Delimited [3]); (5, Varint (2 ^ 64 - 1))]).
Proof.
  split; [vm_compute; reflexivity|]. split; [reflexivity|]. cbv zeta.
  split; [apply typed_messageb_ok; vm_compute; reflexivity|]. split; vm_compute; reflexivity.
Qed.

Lemma C65_abi_example_proof :
  abi_encode (ATuple [ABytes [100; 97; 118; 101]; AWord 1; AArray [AWord 1; AWord 2; AWord 3]]) =
  be_bytes 32 96 ++ be_bytes 32 1 ++ be_bytes 32 160 ++
  be_bytes 32 4 ++ [100; 97; 118; 101] ++ repeat 0 28 ++
  be_bytes 32 3 ++ be_bytes 32 1 ++ be_bytes 32 2 ++ be_bytes 32 3.
Proof. vm_compute. reflexivity. Qed.

Lemma C65_example_proof :
  env_ok toy_env /\ history toy_env world0 (run_txs toy_env setup_txs world0).1 world1 /\
  typed_full world1 /\ typed_input input1 /\ full_root toy_env world1 = si_root input1 /\
  collision_free (keccak toy_env) (stf_strings toy_env input1 world1) /\
  length <$> stf_commit toy_env input1 = Some 704%nat.
Proof.
  destruct C23_example_proof as (H1 & H2 & H3 & H4 & H5 & H6 & _).
  repeat match goal with |- _ /\ _ => split; [assumption|] end. vm_compute. reflexivity.
Qed.

Lemma C66_example_proof :
  history toy_env world0 (run_txs toy_env setup_txs world0).1 world1 /\
  size (accounts world1) = 4%nat /\ full_root toy_env world1 <> full_root toy_env world0.
Proof.
  destruct C23_example_proof as (_ & H2 & _). split; [exact H2|].
  split; [vm_compute; reflexivity|]. intros H. vm_compute in H. discriminate H.
Qed.
