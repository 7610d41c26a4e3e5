(** [execute] on plain maps refines the transition relation of [StepSpec.v]. *)
From Verif Require Export ClearStep History.
From Coq Require Import ZifyBool ZifyN ZifyNat.
Open Scope N_scope.

Lemma bump_revert (s : ledger) id :
  bump_tx_id (with_transactions (<[request_index id := true]> (vs_transactions s)) s)
  = after_signed s id (vs_accounts s).
Proof. reflexivity. Qed.

Lemma bump_apply (s : ledger) id A :
  bump_tx_id (with_accounts A
    (with_transactions (<[request_index id := true]> (vs_transactions s)) s))
  = after_signed s id A.
Proof. reflexivity. Qed.

Lemma execute_map_sound E t s s' r :
  execute_map E t s = (s', r) -> ~ is_panic r -> lstep E s t s' r.
Proof.
  unfold execute_map, execute.
  change (run acc_maps tx_maps (execute_inner E t) s) with (run_map (execute_inner E t) s).
  destruct (run_map (execute_inner E t) s) as [s1 [o|e]] eqn:Hrun.
  2:{ intros [= <- <-] Hn. cbn in Hn. tauto. }
  intros Heq Hn. clear Hn.
  assert (Hr : s' = bump_tx_id s1 /\ r = match o with Applied x => ResOk x | Reverted v => ResRevert v end).
  { destruct o; split; congruence. }
  clear Heq. destruct Hr as [-> ->].
  destruct t as [d|c|d|t|c|w]; cbn [execute_inner] in Hrun.
  - apply deposit_inv in Hrun as (A' & H1 & H2 & H3 & -> & ->).
    apply (step_deposit E s d A'); [split; assumption|assumption].
  - apply create_prover_inv in Hrun as (H1 & H2 & -> & ->).
    apply (step_create_prover E s c). split; assumption.
  - apply delegate_inv in Hrun as (body & owner & prover & auct & fee & pa & H). cbn zeta in H.
    destruct H as (H1 & H2 & H3 & H4 & H5 & H6 & H7 & H8 & H9 & H).
    assert (Hok : delegate_ok E s d body owner prover auct fee) by (constructor; eauto).
    destruct H as [(Hlt & -> & ->)|(dg & A' & Hle & Hd & Hm & -> & ->)].
    + rewrite bump_revert; eapply step_delegate_revert; eassumption.
    + rewrite bump_apply; eapply step_delegate; eassumption.
  - apply transfer_inv in Hrun as (body & from & to & amount & auct & fee & H). cbn zeta in H.
    destruct H as (H1 & H2 & H3 & H4 & H5 & H6 & H7 & H8 & H9 & H).
    assert (Hok : transfer_ok E s t body from to amount auct fee) by (constructor; eauto).
    destruct H as [(Hlt & -> & ->)|(A' & Hle & Hm & -> & ->)].
    + rewrite bump_revert; eapply step_transfer_revert; eassumption.
    + rewrite bump_apply; eapply step_transfer; eassumption.
  - apply clear_inv in Hrun as (x & settle & bidder & auct & exec & pa & Hca & H).
    assert (Hpa : acct (vs_accounts s) (cc_prover x) = pa).
    { unfold acct. rewrite (ca_prover_acct _ _ _ _ _ _ _ _ _ _ _ Hca). reflexivity. }
    destruct H as [(p & Hp & H)|(f & body & signer & pvh & pgus & Hf & H)].
    + destruct H as [(Hlt & -> & ->)|(tr & A' & Hle & Ht & Hm & -> & ->)].
      * rewrite bump_revert; eapply step_punish_revert; eassumption.
      * rewrite bump_apply; eapply step_punish; eassumption.
    + cbn zeta in H. rewrite Hpa in H. destruct H as (H1 & H2 & H3 & H4 & H).
      assert (Hz : clear_priced (vs_accounts s) x pgus) by (constructor; auto).
      destruct H as [(Hlt & -> & ->)|(tr & A' & Hle & Ht & Hb & Hc & Hm & -> & ->)].
      * rewrite bump_revert; eapply step_clear_revert; eassumption.
      * rewrite bump_apply; eapply step_clear; eassumption.
  - apply withdraw_inv in Hrun as (body & from & who & amount & auct & fee & H). cbn zeta in H.
    destruct H as (H1 & H2 & H3 & H4 & H5 & H6 & H7 & H8 & H9 & H10 & H).
    assert (Hok : withdraw_ok E s w body from who amount auct fee) by (constructor; eauto).
    destruct H as [(payer & req & Hc & Hlt & -> & ->)|(A' & Hle & Hm & -> & ->)].
    + rewrite bump_revert; eapply step_withdraw_revert; [eassumption|]. split; eassumption.
    + rewrite bump_apply; eapply step_withdraw; eassumption.
Qed.
