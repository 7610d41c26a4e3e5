(** A batch that follows the rules can be proven, and the pending queue does. *)
From Verif Require Export Looks L1Live.
From Verif Require Import StfFacts AggFacts.
From Coq Require Import Lia ZifyBool ZifyN ZifyNat.
Open Scope N_scope.
Local Opaque request_index.

(** ** Running what follows the rules *)

Lemma spec_run_full E txs : forall s rs l',
  spec_run E (contents s) txs rs l' -> exists s', run_batch E s txs = (s', rs) /\ contents s' = l'.
Proof.
  induction txs as [|t txs IH]; intros s rs l' H; inversion H; subst; cbn [run_batch].
  - eauto.
  - match goal with Hs : lstep _ _ _ _ _ |- _ => apply execute_full_complete in Hs as (s1 & Hs1 & <-) end.
    match goal with Hs : spec_run _ _ _ _ _ |- _ => apply IH in Hs as (s' & Hs' & <-) end.
    rewrite Hs1, Hs'. eauto.
Qed.

Lemma spec_run_calm E l txs rs l' : spec_run E l txs rs l' -> calm rs.
Proof. induction 1; constructor; [eapply lstep_not_panic; eassumption|assumption]. Qed.

Lemma reset_contents s : contents (tracking_reset s) = contents s.
Proof. reflexivity. Qed.
Lemma reset_ok E s : state_ok E s -> state_ok E (tracking_reset s).
Proof. intros Hs. eapply happens_ok; [exact Hs|apply happens_clear_tracking]. Qed.
Lemma reset_root E s : full_root E (tracking_reset s) = full_root E s.
Proof. reflexivity. Qed.
Lemma reset_asked R s : asked_ok R (tracking_reset s).
Proof. split; intros k Hk; now apply elem_of_empty in Hk. Qed.

Lemma root_of_contents E s1 s2 : state_ok E s1 -> state_ok E s2 -> contents s1 = contents s2 ->
  full_root E s1 = full_root E s2.
Proof.
  intros H1 H2 Hc. unfold full_root.
  rewrite (account_root_spec E s1 H1), (account_root_spec E s2 H2), (request_root_spec E s1 H1), (request_root_spec E s2 H2).
  unfold contents in Hc. injection Hc as Ea Eb Ec Ed Ee Ef Eg. unfold container_hash, accounts, flags. congruence.
Qed.

(** ** The keys of a batch *)

Lemma asked_weaken (R R' : N -> Prop) s : (forall k, R k -> R' k) -> asked_ok R s -> asked_ok R' s.
Proof. intros H [HA HR]. split; [exact HA|]. intros k Hk. now apply H, HR. Qed.

Lemma execute_asked E t (R : N -> Prop) s s' r : env_ok E -> typed_tx t -> typed_full s ->
  (forall k, remembered E t k -> R k) -> asked_ok R s -> execute_full E t s = (s', r) -> asked_ok R s'.
Proof.
  intros HE Ht Hs HR Ha He. unfold execute_full, execute in He.
  destruct (run _ _ (execute_inner E t) s) as [s1 r1] eqn:Hrun.
  assert (Hq : looks R outcome_ok (execute_inner E t)).
  { apply (looks_more (remembered E t) R outcome_ok _ HR). now apply looks_execute. }
  pose proof (run_asked E R outcome_ok (execute_inner E t) s s1 r1 Hq Hs Ha Hrun) as H1.
  destruct r1 as [[o|v]|e]; apply pair_equal_spec in He as [<- _]; exact H1.
Qed.

Lemma run_batch_asked E txs : forall (R : N -> Prop) s s' rs, env_ok E -> Forall typed_tx txs -> typed_full s ->
  (forall t k, t ∈ txs -> remembered E t k -> R k) -> asked_ok R s -> run_batch E s txs = (s', rs) -> asked_ok R s'.
Proof.
  induction txs as [|t txs IH]; intros R s s' rs HE Ht Hs HR Ha Hb; cbn [run_batch] in Hb.
  - apply pair_equal_spec in Hb as [<- _]. exact Ha.
  - destruct (execute_full E t s) as [s1 r] eqn:He. destruct (run_batch E s1 txs) as [s2 rs2] eqn:Hb2.
    apply pair_equal_spec in Hb as [<- _]. apply Forall_cons in Ht as [Ht1 Ht].
    eapply IH; [exact HE|exact Ht| | | |exact Hb2].
    + now apply (execute_full_typed E t s s1 r HE Ht1 Hs He).
    + intros u k Hu. apply HR. now right.
    + eapply execute_asked; [exact HE|exact Ht1|exact Hs| |exact Ha|exact He]. intros k. apply HR. left.
Qed.

(** ** The recorded input *)

Lemma account_proofs_for E s keys : state_ok E s -> Forall is_address keys ->
  proofs_for (account_tree E) (vs_accounts s) keys = map (true_proof (account_tree E) (accounts s)) keys.
Proof.
  intros Hs. induction 1 as [|k keys Hk _ IH]; [reflexivity|]. unfold proofs_for in *. cbn [omap list_omap map].
  destruct (merkle_proof_spec (account_tree E) (vs_accounts s) k (so_accounts _ _ Hs)) as [-> _];
    [cbn [tc_bits account_tree]; lia|exact Hk|]. now rewrite IH.
Qed.
Lemma request_proofs_for E s keys : state_ok E s ->
  proofs_for (request_tree E) (vs_transactions s) keys = map (true_proof (request_tree E) (flags s)) keys.
Proof.
  intros Hs. induction keys as [|k keys IH]; [reflexivity|]. unfold proofs_for in *. cbn [omap list_omap map].
  destruct (merkle_proof_spec (request_tree E) (vs_transactions s) k (so_requests _ _ Hs)) as [-> _];
    [cbn [tc_bits request_tree]; lia|exact (request_index_lt k)|]. now rewrite IH.
Qed.

Lemma map_key_true {V} (cfg : tree_cfg V) m keys : map mp_key (map (true_proof cfg m) keys) = keys.
Proof. rewrite map_map. apply map_id. Qed.

Lemma nodup_map {A B} (f : A -> B) (l : list A) :
  NoDup l -> (forall a b, a ∈ l -> b ∈ l -> f a = f b -> a = b) -> NoDup (map f l).
Proof.
  induction 1 as [|a l Ha _ IH]; intros Hf; [constructor|]. cbn [map]. constructor.
  - intros Hin. apply elem_of_list_fmap in Hin as (b & Heq & Hb). apply Ha.
    rewrite (Hf a b); [exact Hb|left|now right|exact Heq].
  - apply IH. intros x y Hx Hy. apply Hf; now right.
Qed.

Section recorded.
  Context (E : env) (s : full_state) (txs : list tx) (timestamp : N) (rs : list exec_result) (l' : ledger).
  Context (HE : env_ok E) (Hs : state_ok E s) (Hty : typed_full s) (Htx : Forall typed_tx txs).
  Context (Hplaces : places_differ E txs) (Hspec : spec_run E (contents s) txs rs l').

  Lemma recorded_run : exists s1, run_batch E (tracking_reset s) txs = (s1, rs) /\ contents s1 = l' /\
    state_ok E s1 /\ asked_ok (fun k => exists t, t ∈ txs /\ remembered E t k) s1.
  Proof.
    rewrite <- reset_contents in Hspec. destruct (spec_run_full E txs _ rs l' Hspec) as (s1 & Hb & Hc).
    exists s1. split; [exact Hb|]. split; [exact Hc|].
    split; [eapply run_batch_ok; [apply reset_ok, Hs|exact Hb]|].
    eapply run_batch_asked; [exact HE|exact Htx| | |apply reset_asked|exact Hb]; [exact Hty|eauto].
  Qed.

  Lemma recorded_true : true_input E s (recorded_input E s txs timestamp).
  Proof.
    destruct recorded_run as (s1 & Hb & _ & _ & [HA HR]).
    unfold recorded_input. rewrite Hb. cbn [fst].
    assert (HkA : Forall is_address (elements (touched_accounts s1))).
    { apply Forall_forall. intros k Hk. apply HA. now apply elem_of_elements. }
    split; try reflexivity; cbn [si_account_proofs si_request_proofs].
    - rewrite account_proofs_for by assumption. apply Forall_map, Forall_forall. intros k Hk. cbn [compose mp_key true_proof].
      split; [|reflexivity]. apply HA. now apply elem_of_elements.
    - rewrite request_proofs_for by assumption. apply Forall_map, Forall_forall. intros k Hk. reflexivity.
    - rewrite account_proofs_for, map_key_true by assumption. apply NoDup_elements.
    - rewrite request_proofs_for by assumption. rewrite map_map. cbn [mp_key true_proof].
      apply nodup_map; [apply NoDup_elements|]. intros a b Ha Hb'.
      apply elem_of_elements, HR in Ha as (t1 & H1 & H2). apply elem_of_elements, HR in Hb' as (t2 & H3 & H4).
      now apply (Hplaces t1 t2 a b).
  Qed.

  Lemma recorded_typed : typed_input (recorded_input E s txs timestamp).
  Proof.
    destruct recorded_run as (s1 & Hb & _ & _ & [HA HR]).
    destruct Hty as [Hcnt Hacc].
    unfold recorded_input. rewrite Hb. cbn [fst].
    assert (HkA : Forall is_address (elements (touched_accounts s1))).
    { apply Forall_forall. intros k Hk. apply HA. now apply elem_of_elements. }
    split; [now apply account_root_word|]. split; [now apply request_root_word|].
    split; [exact Hcnt|]. cbn [si_account_proofs si_request_proofs].
    rewrite account_proofs_for, request_proofs_for by assumption. split.
    - intros p Hp. apply elem_of_list_fmap in Hp as (k & -> & Hk). cbn [mp_key mp_path mp_value true_proof].
      split; [apply HA; now apply elem_of_elements|]. split.
      + apply (siblings_words (account_tree E) E abi_account (fun _ => eq_refl) (fun _ _ => eq_refl) HE).
      + intros a Ha. now apply (Hacc _ _ Ha).
    - intros p Hp. apply elem_of_list_fmap in Hp as (k & -> & Hk).
      apply (siblings_words (request_tree E) E abi_bool (fun _ => eq_refl) (fun _ _ => eq_refl) HE).
  Qed.

  Lemma recorded_commits : exists s', run_batch E s txs = (s', rs) /\ contents s' = l' /\
    stf_main E (recorded_input E s txs timestamp) =
    Some (StepPv (full_root E s) (full_root E s') timestamp (map sol_of_receipt (batch_receipts rs))).
  Proof.
    destruct (spec_run_full E txs s rs l' Hspec) as (s' & Hb' & Hc').
    destruct recorded_run as (s1 & Hb & Hc & Hs1 & [HA HR]).
    exists s'. split; [exact Hb'|]. split; [exact Hc'|].
    assert (HkA : Forall is_address (elements (touched_accounts s1))).
    { apply Forall_forall. intros k Hk. apply HA. now apply elem_of_elements. }
    assert (Hroot : full_root E s' = full_root E s1).
    { apply root_of_contents; [exact (run_batch_ok E txs s s' rs Hs Hb')|exact Hs1|congruence]. }
    rewrite Hroot.
    rewrite <- (reset_root E s). pose proof recorded_true as Htrue.
    refine (stf_true_complete E (tracking_reset s) (recorded_input E s txs timestamp) s1 rs _ (reset_ok E s Hs) Hb
              (spec_run_calm _ _ _ _ _ Hspec) _ _).
    - destruct Htrue. split; assumption.
    - intros k Hk. unfold recorded_input. rewrite Hb. cbn [fst si_account_proofs].
      rewrite account_proofs_for, map_key_true by assumption. now apply elem_of_elements.
    - intros k Hk. unfold recorded_input. rewrite Hb. cbn [fst si_request_proofs].
      rewrite request_proofs_for, map_key_true by assumption. now apply elem_of_elements.
  Qed.
End recorded.

(** ** A batch on the settlement contract *)

Lemma usable_recorded E s txs timestamp rs l' p :
  env_ok E -> state_ok E s -> typed_full s -> Forall typed_tx txs -> places_differ E txs ->
  spec_run E (contents s) txs rs l' -> is_u64 timestamp ->
  stf_main E (recorded_input E s txs timestamp) = Some p -> N.of_nat (length (abi_step p)) < 2 ^ 256 ->
  usable_input E (recorded_input E s txs timestamp).
Proof.
  intros HE Hs Hty Htx Hpl Hspec Ht Hp Hlen. split; [eapply recorded_typed; eassumption|].
  split; [exact Ht|]. split; [exact Htx|].
  intros b Hb. unfold stf_commit in Hb. rewrite Hp in Hb. cbn in Hb. injection Hb as <-. exact Hlen.
Qed.

Lemma one_made E sha verify i p : env_ok E -> usable_input E i -> stf_main E i = Some p ->
  verify (sha (abi_step p)) = true -> made_from E sha verify [i] (abi_step p).
Proof.
  intros HE Hu Hp Hv. split; [now constructor|]. exists [abi_step p], p.
  pose proof (stf_pv_typed E i p HE Hu Hp) as Ht.
  split; [|split; [|split; [reflexivity|apply Ht]]].
  - constructor; [|constructor]. intros _. unfold stf_commit. now rewrite Hp.
  - apply aggregate_spec. exists [p], p, p. split; [now constructor|].
    split; [constructor; [now apply decode_step_spec|constructor]|].
    split; [intros [|j] a b Ha Hb; discriminate|].
    split; [reflexivity|]. split; [reflexivity|]. destruct p. cbn. now rewrite app_nil_r.
Qed.

Lemma settled_extend E L sha verify domain v0 log v x c inputs v' :
  settled_run E L sha verify domain v0 log v -> l1_transact L x c v = (v', None) ->
  typed_call x c -> (match c with CFork _ _ => False | _ => True end) ->
  own_actions L (LAccepted x c inputs) -> proofs_sound E sha verify (LAccepted x c inputs) ->
  settled_run E L sha verify domain v0 (log ++ [LAccepted x c inputs]) v'.
Proof.
  intros [HE HL Ha Hd Hdep Hh Hty Hnf Hown Hsnd] Ht Hc Hf Ho Hp.
  split; try assumption; try (apply Forall_app; split; [assumption|constructor; [assumption|constructor]]).
  clear -Hh Ht. induction Hh; cbn [app].
  - econstructor; [exact Ht|constructor].
  - econstructor; [eassumption|auto].
  - econstructor; [eassumption|auto].
  - econstructor; [eassumption|auto].
Qed.

Section settle.
  Context (E : env) (L : l1_env) (sha : bytes -> N) (verify : N -> bool) (domain : N) (v0 v : l1_state) (log : list l1_entry).
  Context (Hrun : settled_run E L sha verify domain v0 log v)
    (Hhash : collision_free (keccak E) (log_strings E (full_new E domain) log)).
  Let s := ledger_after E (full_new E domain) log.

  Lemma batch_provable txs timestamp rs l' :
    Forall typed_tx txs -> places_differ E txs -> spec_run E (contents s) txs rs l' ->
    exists s', run_batch E s txs = (s', rs) /\ contents s' = l' /\
      stf_main E (recorded_input E s txs timestamp) =
      Some (StepPv (va_root v) (full_root E s') timestamp (map sol_of_receipt (batch_receipts rs))).
  Proof.
    intros Htx Hpl Hspec. destruct (run_inv E L sha verify domain v0 log v Hrun Hhash) as [Hinv _]. fold s in Hinv.
    rewrite (sy_root _ _ _ _ _ _ Hinv).
    apply recorded_commits; [apply Hrun|exact (sy_state _ _ _ _ _ _ Hinv)|exact (sy_typed _ _ _ _ _ _ Hinv)|assumption..].
  Qed.

  Lemma batch_settles txs timestamp rs l' p x proof :
    Forall typed_tx txs -> places_differ E txs -> spec_run E (contents s) txs rs l' ->
    is_u64 timestamp -> stf_main E (recorded_input E s txs timestamp) = Some p ->
    N.of_nat (length (abi_step p)) < 2 ^ 256 -> verify (sha (abi_step p)) = true ->
    collision_free (keccak E) (log_strings E (full_new E domain)
      (log ++ [LAccepted x (CStep (abi_step p) proof) [recorded_input E s txs timestamp]])) ->
    is_address (cx_sender x) -> step_allowed L x (abi_step p) proof p v ->
    va_block v + 1 < 2 ^ 64 -> N.of_nat (length (created log)) < 2 ^ 64 - 1 ->
    Forall (from_queue (created log)) txs -> Forall (can_receive x) (pv_receipts p) ->
    exists v', l1_transact L x (CStep (abi_step p) proof) v = (v', None) /\
      settled_run E L sha verify domain v0
        (log ++ [LAccepted x (CStep (abi_step p) proof) [recorded_input E s txs timestamp]]) v' /\
      queue_faithful (created log) (finalised L log ++ L1Spec.onchain (pv_receipts p)) v' /\
      (forall a, tk_balance (va_prove v') a + (if a =? le_self L then sum (paid L x) (pv_receipts p) else 0)
        = tk_balance (va_prove v) a + sum (received L x a) (pv_receipts p)).
  Proof.
    intros Htx Hpl Hspec Ht Hp Hlen Hv Hc Hx Hal Hb Hq Hfq Hrec.
    destruct (run_inv E L sha verify domain v0 log v Hrun Hhash) as [Hinv Hcur]. fold s in Hinv, Hcur.
    pose proof (sr_env _ _ _ _ _ _ _ _ Hrun) as HE.
    pose proof (usable_recorded E s txs timestamp rs l' p HE (sy_state _ _ _ _ _ _ Hinv) (sy_typed _ _ _ _ _ _ Hinv)
      Htx Hpl Hspec Ht Hp Hlen) as Hu.
    pose proof (one_made E sha verify _ p HE Hu Hp Hv) as Hmade.
    rewrite log_strings_app in Hc. apply collision_free_app in Hc as [_ Hc].
    cbn [log_strings] in Hc. rewrite app_nil_r in Hc.
    destruct (step_succeeds E L sha verify s (created log) (finalised L log) v x p proof
      [recorded_input E s txs timestamp] HE (sr_l1_env _ _ _ _ _ _ _ _ Hrun) (sr_addresses _ _ _ _ _ _ _ _ Hrun)
      Hinv Hcur Hmade Hc Hal Hb Hq) as [v' Hv'].
    - unfold all_txs. cbn [map concat]. now rewrite app_nil_r.
    - exact Hrec.
    - assert (Hacc : l1_transact L x (CStep (abi_step p) proof) v = (v', None)).
      { unfold l1_transact. cbn [l1_run]. now rewrite Hv'. }
      exists v'. split; [exact Hacc|]. split.
      { apply (settled_extend E L sha verify domain v0 log v); [exact Hrun|exact Hacc|split; [exact Hx|exact I]|exact I|exact I|exact Hmade]. }
      pose proof (step_ok _ _ _ _ _ _ Hv') as (p' & Hp' & Hh).
      assert (p' = p) as -> by (destruct Hp', Hal; congruence).
      split; [|exact (handle_payments L x (pv_receipts p) _ v' Hh)].
      eapply (queue_receipts L x (created log) (pv_receipts p)); [| | |exact Hh].
      + exact (sy_typed_queue _ _ _ _ _ _ Hinv).
      + apply Forall_forall. intros r Hr.
        exact (leo_bytes L (sr_l1_env _ _ _ _ _ _ _ _ Hrun) _ p r (sa_decoded _ _ _ _ _ _ Hal) Hr).
      + eapply queue_same; [exact (sy_queue _ _ _ _ _ _ Hinv)|reflexivity..].
  Qed.
End settle.
