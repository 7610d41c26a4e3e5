(** Running a program on the full Merkle storage is running it on the plain maps of its leaves. *)
From Verif Require Export Complete.
Open Scope N_scope.
Local Opaque request_index.

(** The contents of a full state: caches, zero hashes and key tracking are forgotten. *)
Definition contents (s : full_state) : ledger :=
  VState (vs_domain s) (vs_tx_id s) (vs_onchain_tx_id s) (vs_onchain_block s)
    (vs_onchain_log_index s) (mk_leaves (vs_accounts s)) (mk_leaves (vs_transactions s)).

Lemma run_contents E {X} (p : prog X) (s : full_state) :
  run_map p (contents s) =
  let '(s', r) := run (merkle_storage (account_tree E)) (merkle_storage (request_tree E)) p s in
  (contents s', r).
Proof.
  revert s. unfold run_map.
  induction p as [x|e|k c IH|k c IH|k c IH|k a c IH|k c IH|k b c IH|c IH|c IH|i b l c IH]; intros s.
  - reflexivity.
  - reflexivity.
  - cbn [run]. exact (IH _ (with_accounts (merkle_entry (account_tree E) k (vs_accounts s)).2 s)).
  - cbn [run]. exact (IH _ (with_accounts (merkle_get (account_tree E) k (vs_accounts s)).2 s)).
  - cbn [run]. exact (IH _ (with_accounts (merkle_get_mut (account_tree E) k (vs_accounts s)).2 s)).
  - cbn [run]. exact (IH (with_accounts (merkle_put (account_tree E) k a (vs_accounts s)) s)).
  - cbn [run].
    exact (IH _ (with_transactions (merkle_entry (request_tree E) k (vs_transactions s)).2 s)).
  - cbn [run].
    exact (IH (with_transactions (merkle_insert (request_tree E) k b (vs_transactions s)) s)).
  - cbn [run]. exact (IH _ s).
  - cbn [run]. exact (IH _ _ _ s).
  - cbn [run]. exact (IH (with_cursor i b l s)).
Qed.

Lemma execute_contents E t s s' r :
  execute_full E t s = (s', r) -> execute_map E t (contents s) = (contents s', r).
Proof.
  unfold execute_full, execute_map, execute.
  pose proof (run_contents E (execute_inner E t) s) as H. unfold run_map in H. rewrite H.
  destruct (run _ _ _ s) as [s1 [[o|v]|e]]; intros Heq; apply pair_equal_spec in Heq as [<- <-]; reflexivity.
Qed.

Lemma execute_full_sound E t s s' r :
  execute_full E t s = (s', r) -> ~ is_panic r -> lstep E (contents s) t (contents s') r.
Proof. intros H. apply execute_map_sound. now apply execute_contents. Qed.

Lemma execute_full_complete E t s l r :
  lstep E (contents s) t l r ->
  exists s', execute_full E t s = (s', r) /\ contents s' = l.
Proof.
  intros H. destruct (execute_full E t s) as [s' r'] eqn:He.
  pose proof (execute_contents _ _ _ _ _ He) as Hc.
  apply execute_map_complete in H. rewrite Hc in H. apply pair_equal_spec in H as [<- <-]. eauto.
Qed.
