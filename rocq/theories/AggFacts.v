(** The aggregation program. *)
From Verif Require Export AggSpec EncodingFacts.
From Verif Require Import Bytes.
From Coq Require Import ZifyBool ZifyN ZifyNat.
Open Scope N_scope.
Local Opaque request_index.

(** ** What the program commits *)

Lemma decode_all_spec pvs : forall steps,
  decode_all pvs = Some steps <-> Forall2 (fun b p => decode_step b = Some p) pvs steps.
Proof.
  induction pvs as [|b pvs IH]; intros steps; cbn [decode_all].
  - split; [intros [= <-]; constructor|]. intros H. now inversion H.
  - split.
    + destruct (decode_step b) as [p|] eqn:Hb; [|discriminate]. cbn [mbind option_bind].
      destruct (decode_all pvs) as [ps|]; [|discriminate]. cbn [mbind option_bind]. intros [= <-].
      constructor; [exact Hb|]. now apply IH.
    + intros H. inversion H as [|? p ? ps Hb Hps]; subst. rewrite Hb. cbn [mbind option_bind].
      apply IH in Hps. now rewrite Hps.
Qed.

Lemma consistent_spec steps : consistent steps = true <-> chained steps.
Proof.
  induction steps as [|a [|b rest] IH].
  - split; [|reflexivity]. intros _ i x y Hx. discriminate.
  - split; [|reflexivity]. intros _ i x y Hx Hy. destruct i; discriminate.
  - cbn [consistent] in *. rewrite !andb_true_iff, IH, N.eqb_eq, N.leb_le. split.
    + intros [[H1 H2] H3] [|i] x y Hx Hy.
      * cbn in Hx, Hy. injection Hx as <-. injection Hy as <-. now split.
      * exact (H3 i x y Hx Hy).
    + intros H. split; [exact (H 0%nat a b eq_refl eq_refl)|]. intros i x y Hx Hy. exact (H (S i) x y Hx Hy).
Qed.

Lemma aggregate_spec sha verify pvs out :
  aggregate_main sha verify pvs = Some out <->
  exists steps first last,
    Forall (fun b => verify (sha b) = true) pvs /\
    Forall2 (fun b p => decode_step b = Some p) pvs steps /\ chained steps /\
    head steps = Some first /\ list.last steps = Some last /\
    out = StepPv (pv_old_root first) (pv_new_root last) (pv_timestamp last)
            (concat (map pv_receipts steps)).
Proof.
  unfold aggregate_main. split.
  - destruct pvs as [|b0 pvs0]; [discriminate|]. set (pvs := b0 :: pvs0).
    destruct (forallb _ pvs) eqn:Hv; [|discriminate].
    destruct (decode_all pvs) as [steps|] eqn:Hd; [|discriminate]. cbn [mbind option_bind].
    destruct (consistent steps) eqn:Hc; [|discriminate].
    destruct (head steps) as [first|] eqn:Hf; [|discriminate]. cbn [mbind option_bind].
    destruct (list.last steps) as [l|] eqn:Hl; [|discriminate]. cbn [mbind option_bind]. intros [= <-].
    exists steps, first, l. repeat split; auto.
    + rewrite forallb_forall in Hv. apply Forall_forall. intros b Hb%elem_of_list_In. exact (Hv b Hb).
    + now apply decode_all_spec.
    + apply consistent_spec in Hc. eapply Hc; eassumption.
    + apply consistent_spec in Hc. eapply Hc; eassumption.
  - intros (steps & first & l & Hv & Hd & Hc & Hf & Hl & ->).
    destruct pvs as [|b0 pvs0]; [inversion Hd; subst; discriminate|].
    assert (Hv' : forallb (fun pv => verify (sha pv)) (b0 :: pvs0) = true).
    { apply forallb_forall. rewrite Forall_forall in Hv. intros b Hb%elem_of_list_In. exact (Hv b Hb). }
    rewrite Hv'. apply decode_all_spec in Hd. rewrite Hd. cbn [mbind option_bind].
    apply consistent_spec in Hc. rewrite Hc, Hf. cbn [mbind option_bind]. rewrite Hl. reflexivity.
Qed.

(** ** The public values of the state-transition program are well typed *)

Lemma sparse_batch_typed E txs : forall sp l sp' rs,
  env_ok E -> Forall typed_tx txs -> typed_ledger l -> agree_map sp l ->
  sparse_batch E sp txs = (sp', rs) -> calm rs -> Forall typed_result rs.
Proof.
  induction txs as [|t txs IH]; intros sp l sp' rs HE Ht Hl Ha H Hc; cbn [sparse_batch] in H.
  - apply pair_equal_spec in H as [_ <-]. constructor.
  - destruct (execute_sparse E t sp) as [sp1 r] eqn:He, (sparse_batch E sp1 txs) as [sp2 rs2] eqn:Hb.
    apply pair_equal_spec in H as [_ <-]. apply Forall_cons in Ht as [Ht Hts].
    apply Forall_cons in Hc as [Hr Hc].
    destruct (execute_sparse_map E t sp l sp1 r Ha He) as (l1 & Hm & Ha1 & _);
      [intros ->; now apply Hr|].
    destruct (execute_map_typed E t l l1 r HE Ht Hl Hm) as [Hl1 Hr1].
    constructor; [exact Hr1|]. exact (IH sp1 l1 sp2 rs2 HE Hts Hl1 Ha1 Hb Hc).
Qed.

(** The data a sparse state holds, as a plain map. *)
Definition own_data (sp : sparse_state) : ledger :=
  VState (vs_domain sp) (vs_tx_id sp) (vs_onchain_tx_id sp) (vs_onchain_block sp) (vs_onchain_log_index sp)
    (sp_inner (vs_accounts sp)) (sp_inner (vs_transactions sp)).

Lemma own_agree sp : agree_map sp (own_data sp).
Proof. constructor; reflexivity. Qed.

Lemma stf_main_parts E i pv : stf_main E i = Some pv ->
  exists accts txns sp' rs ra rr,
    container_hash E (si_state i) (si_accounts_root i) (si_requests_root i) = si_root i /\
    recover (account_tree E) (si_accounts_root i) (si_account_proofs i) (vs_accounts (si_state i)) = Ok accts /\
    recover (request_tree E) (si_requests_root i) (si_request_proofs i) (vs_transactions (si_state i)) = Ok txns /\
    sparse_batch E (with_transactions txns (with_accounts accts (si_state i))) (si_txs i) = (sp', rs) /\
    calm rs /\
    pv = StepPv (si_root i) (container_hash E sp' ra rr) (si_timestamp i) (map sol_of_receipt (batch_receipts rs)).
Proof.
  intros Hm. unfold stf_main in Hm. cbv zeta in Hm.
  destruct (container_hash E (si_state i) (si_accounts_root i) (si_requests_root i) =? si_root i) eqn:Hr;
    [|discriminate]. cbn [negb] in Hm. apply N.eqb_eq in Hr.
  destruct (recover (account_tree E) (si_accounts_root i) (si_account_proofs i) (vs_accounts (si_state i)))
    as [accts|] eqn:HA; [|discriminate].
  destruct (recover (request_tree E) (si_requests_root i) (si_request_proofs i)
    (vs_transactions (with_accounts accts (si_state i)))) as [txns|] eqn:HR; [|discriminate].
  destruct (stf_loop E (si_txs i) (with_transactions txns (with_accounts accts (si_state i))) [])
    as [[sp' rcs]|] eqn:Hl; [|discriminate].
  apply stf_loop_some in Hl as (rs & Hb & Hc & ->). cbn [app] in Hm.
  destruct (calculate_new_root_sparse _ _ _ (vs_accounts sp')) as [ra|]; [|discriminate].
  destruct (calculate_new_root_sparse _ _ _ (vs_transactions sp')) as [rr|]; [|discriminate].
  injection Hm as <-. exists accts, txns, sp', rs, ra, rr. repeat split; assumption.
Qed.

Lemma stf_old_root E i pv : stf_main E i = Some pv -> pv_old_root pv = si_root i /\ pv_timestamp pv = si_timestamp i.
Proof.
  intros H. apply stf_main_parts in H as (accts & txns & sp' & rs & ra & rr & _ & _ & _ & _ & _ & ->). now split.
Qed.

Lemma stf_pv_typed E i pv : env_ok E -> usable_input E i -> stf_main E i = Some pv -> typed_pv pv.
Proof.
  intros HE (Hti & Hts & Htx & Hlen) Hm.
  assert (Hsize : N.of_nat (length (abi_step pv)) < 2 ^ 256).
  { apply Hlen. unfold stf_commit. now rewrite Hm. }
  apply stf_main_parts in Hm as (accts & txns & sp' & rs & ra & rr & Hroot & HA & HR & Hb & Hc & ->).
  split; [|split; [|split; [exact Hts|split; [|exact Hsize]]]].
  - rewrite <- Hroot. apply (keccak_lt E HE).
  - apply (keccak_lt E HE).
  - set (sp := with_transactions txns (with_accounts accts (si_state i))) in *.
    destruct Hti as (T1 & T2 & T3 & T4 & T5).
    assert (Hl : typed_ledger (own_data sp)).
    { split; [exact T3|]. intros k a Ha.
      apply recover_spec in HA as (_ & Hn & ->).
      destruct (recovered_spec (account_tree E) (si_account_proofs i) Hn) as [_ Hin].
      change (sp_inner (recovered (account_tree E) (si_account_proofs i)) !! k = Some a) in Ha.
      rewrite Hin in Ha. unfold proven in Ha.
      destruct (List.find (fun p => proof_index (account_tree E) p =? k) (si_account_proofs i)) as [p|] eqn:Hp;
        [|discriminate].
      apply List.find_some in Hp as [Hp Hk]. apply N.eqb_eq in Hk. apply elem_of_list_In in Hp.
      destruct (T4 p Hp) as (Hk1 & _ & Hv). cbn in Ha. split; [|now apply Hv].
      rewrite <- Hk. exact Hk1. }
    pose proof (sparse_batch_typed E (si_txs i) sp (own_data sp) sp' rs HE Htx Hl (own_agree sp) Hb Hc) as Hrs.
    apply batch_receipts_typed in Hrs. clear -Hrs.
    induction Hrs as [|r l Hr _ IH]; cbn [pv_receipts map]; constructor; [now apply sol_of_receipt_typed|exact IH].
Qed.

(** ** Composition *)

Lemma run_batch_app E txs1 : forall txs2 s s1 rs1 s2 rs2,
  run_batch E s txs1 = (s1, rs1) -> run_batch E s1 txs2 = (s2, rs2) ->
  run_batch E s (txs1 ++ txs2) = (s2, rs1 ++ rs2).
Proof.
  induction txs1 as [|t txs1 IH]; intros txs2 s s1 rs1 s2 rs2 H1 H2; cbn [run_batch app] in *.
  - apply pair_equal_spec in H1 as [<- <-]. exact H2.
  - destruct (execute_full E t s) as [s0 r], (run_batch E s0 txs1) as [s1' rs1'] eqn:Hb.
    apply pair_equal_spec in H1 as [-> <-]. rewrite (IH txs2 s0 s1 rs1' s2 rs2 Hb H2). reflexivity.
Qed.

Lemma batch_receipts_app rs1 rs2 : batch_receipts (rs1 ++ rs2) = batch_receipts rs1 ++ batch_receipts rs2.
Proof.
  induction rs1 as [|r rs1 IH]; [reflexivity|]. cbn [app batch_receipts].
  destruct r as [[r|]|v|e]; [|exact IH..]. cbn [app]. now rewrite IH.
Qed.

Lemma collision_free_app hash l1 l2 : collision_free hash (l1 ++ l2) -> collision_free hash l1 /\ collision_free hash l2.
Proof.
  intros [H1 H2]. split; split; intros; (eapply H1 || eapply H2); rewrite ?elem_of_app; eauto.
Qed.

Lemma last_cons_some {X} (l : list X) : forall x y, list.last (x :: l) = Some y ->
  match list.last l with Some z => z | None => x end = y.
Proof. intros x y. cbn. rewrite last_cons. destruct (list.last l); congruence. Qed.

Lemma chain_sound E inputs : forall pvs steps s first last,
  env_ok E -> state_ok E s -> typed_full s -> Forall (usable_input E) inputs ->
  Forall2 (fun b i => stf_commit E i = Some b) pvs inputs ->
  Forall2 (fun b p => decode_step b = Some p) pvs steps ->
  chained steps -> head steps = Some first -> list.last steps = Some last ->
  pv_old_root first = full_root E s ->
  collision_free (keccak E) (chain_strings E inputs s) ->
  exists s' rs, run_batch E s (all_txs inputs) = (s', rs) /\ calm rs /\
    pv_new_root last = full_root E s' /\ Some (pv_timestamp last) = si_timestamp <$> list.last inputs /\
    concat (map pv_receipts steps) = map sol_of_receipt (batch_receipts rs).
Proof.
  induction inputs as [|i inputs IH]; intros pvs steps s first last HE Hs Hts Hu Hpv Hd Hch Hf Hl Hold Hc.
  { inversion Hpv; subst. inversion Hd; subst. discriminate. }
  inversion Hpv as [|b ? pvs' ? Hb Hpv']; subst. inversion Hd as [|? p ? steps' Hp Hd']; subst.
  apply Forall_cons in Hu as [Hu Hus]. cbn [head] in Hf. injection Hf as <-.
  cbn [chain_strings] in Hc. apply collision_free_app in Hc as [Hc Hcs].
  unfold stf_commit in Hb. destruct (stf_main E i) as [pv|] eqn:Hm; [|discriminate].
  cbn in Hb. injection Hb as <-.
  rewrite (decode_step_spec pv (stf_pv_typed E i pv HE Hu Hm)) in Hp. injection Hp as <-.
  destruct (stf_old_root E i pv Hm) as [Hr Ht].
  pose proof Hu as (Hti & Hu64 & Htx & _).
  pose proof (committed_true E HE s i pv Hs Hts Hti ltac:(congruence) Hc Hm) as Htrue.
  destruct (stf_true_sound E s i pv Htrue Hs Hm) as (s1 & rs1 & Hb1 & Hc1 & Hpv1).
  rewrite Hb1 in Hcs. cbn [fst] in Hcs.
  pose proof (run_batch_ok _ _ _ _ _ Hs Hb1) as Hs1.
  destruct (run_batch_typed E (si_txs i) s s1 rs1 HE Htx Hts Hb1) as [Hts1 _].
  destruct inputs as [|i2 inputs].
  - inversion Hpv'; subst. inversion Hd'; subst. cbn in Hl. injection Hl as <-.
    exists s1, rs1. unfold all_txs. cbn [map concat]. rewrite !app_nil_r.
    split; [exact Hb1|]. split; [exact Hc1|]. split; [reflexivity|]. split; reflexivity.
  - inversion Hpv' as [|b2 ? pvs2 ? Hb2 Hpv2]; subst. inversion Hd' as [|? p2 ? steps2 Hp2 Hd2]; subst.
    destruct (IH (b2 :: pvs2) (p2 :: steps2) s1 p2 last) as (s' & rs & Hrun & Hcalm & Hroot & Htime & Hrec); auto.
    + intros n x y Hx Hy. exact (Hch (S n) x y Hx Hy).
    + destruct (Hch 0%nat (batch_pv E s s1 (si_timestamp i) rs1) p2 eq_refl eq_refl) as [H1 _].
      rewrite <- H1. reflexivity.
    + exists s', (rs1 ++ rs). split; [|split; [|split; [exact Hroot|split; [exact Htime|]]]].
      * unfold all_txs in *. cbn [map concat] in *. exact (run_batch_app E _ _ _ _ _ _ _ Hb1 Hrun).
      * apply Forall_app. now split.
      * change (concat (map pv_receipts (batch_pv E s s1 (si_timestamp i) rs1 :: p2 :: steps2)))
          with (map sol_of_receipt (batch_receipts rs1) ++ concat (map pv_receipts (p2 :: steps2))).
        rewrite Hrec, batch_receipts_app. symmetry. apply map_app.
Qed.
