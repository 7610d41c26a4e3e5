(** Execution keeps the ledger well-typed. *)
From Verif Require Export TypedSpec LedgerFacts SparseSim.
From Verif Require Import Bytes.
From Coq Require Import ZifyBool ZifyN ZifyNat.
Open Scope N_scope.
Local Opaque request_index.

(** A program only writes well-typed data, provided it only reads well-typed data; its result satisfies
    [Q]. *)
Fixpoint keeps {X} (Q : X -> Prop) (p : prog X) : Prop :=
  match p with
  | Ret x => Q x
  | Fail _ => True
  | AccEntry k c => is_address k /\ forall a, typed_account a -> keeps Q (c a)
  | AccGet k c | AccGetMut k c => forall o, if_some (fun a => is_address k /\ typed_account a) o -> keeps Q (c o)
  | AccPut k a c => is_address k /\ typed_account a /\ keeps Q c
  | TxEntry k c => forall b, keeps Q (c b)
  | TxInsert k b c => keeps Q c
  | GetDomain c => forall d, keeps Q (c d)
  | GetCursor c => forall i b l, is_u64 i -> is_u64 b -> is_u64 l -> keeps Q (c i b l)
  | SetCursor i b l c => is_u64 i /\ is_u64 b /\ is_u64 l /\ keeps Q c
  end.

Lemma keeps_bind {X Y} (R : X -> Prop) (Q : Y -> Prop) (p : prog X) (f : X -> prog Y) :
  keeps R p -> (forall x, R x -> keeps Q (f x)) -> keeps Q (bind p f).
Proof.
  induction p as [x|e|k c IH|k c IH|k c IH|k a c IH|k c IH|k b c IH|c IH|c IH|i b l c IH];
    intros Hp Hf; cbn [keeps bind] in *; auto.
  - destruct Hp as [H1 H2]. split; auto.
  - destruct Hp as (H1 & H2 & H3). auto.
  - destruct Hp as (H1 & H2 & H3 & H4). auto.
Qed.

Lemma keeps_weaken {X} (R Q : X -> Prop) (p : prog X) : (forall x, R x -> Q x) -> keeps R p -> keeps Q p.
Proof.
  intros HRQ.
  induction p as [x|e|k c IH|k c IH|k c IH|k a c IH|k c IH|k b c IH|c IH|c IH|i b l c IH];
    intros Hp; cbn [keeps] in *; auto.
  - destruct Hp. split; auto.
  - destruct Hp as (? & ? & ?). auto.
  - destruct Hp as (? & ? & ? & ?). auto.
Qed.

(** No condition (used in proofs only). *)
Definition any {X} (_ : X) : Prop := True.

(** Every part of the ledger is in the range of its Rust type (used in proofs only). *)
Definition typed_ledger (l : ledger) : Prop :=
  typed_counters l /\ (forall k a, vs_accounts l !! k = Some a -> is_address k /\ typed_account a).

Lemma typed_default : typed_account account_default.
Proof. repeat split; cbn; unfold is_word, is_address; now apply N.neq_0_lt_0, N.pow_nonzero. Qed.

Lemma typed_insert (m : gmap N account) k a :
  (forall k a, m !! k = Some a -> is_address k /\ typed_account a) -> is_address k -> typed_account a ->
  forall k' a', <[k := a]> m !! k' = Some a' -> is_address k' /\ typed_account a'.
Proof.
  intros Hm Hk Ha k' a' H. apply lookup_insert_Some in H as [[<- <-]|[_ H]]; [now split|now apply Hm].
Qed.

Lemma run_typed {X} (Q : X -> Prop) (p : prog X) : forall l l' r,
  keeps Q p -> typed_ledger l -> run_map p l = (l', r) ->
  typed_ledger l' /\ forall x, r = Ok x -> Q x.
Proof.
  unfold run_map.
  induction p as [x|e|k c IH|k c IH|k c IH|k a c IH|k c IH|k b c IH|c IH|c IH|i b l0 c IH];
    intros l l' r Hp [Hc Hl] Hrun; cbn [keeps run] in *.
  - apply pair_equal_spec in Hrun as [<- <-]. split; [now split|]. intros y [= <-]. exact Hp.
  - apply pair_equal_spec in Hrun as [<- <-]. split; [now split|]. discriminate.
  - destruct Hp as [Hk Hp].
    assert (Ha : typed_account (default account_default (vs_accounts l !! address_index k))).
    { destruct (vs_accounts l !! address_index k) as [a|] eqn:He; [now apply (Hl _ _ He)|apply typed_default]. }
    eapply IH; [apply Hp, Ha| |exact Hrun]. split; [exact Hc|]. cbn [with_accounts vs_accounts].
    now apply typed_insert.
  - eapply IH; [apply Hp| |exact Hrun]; [|now split]. intros a Ha. now apply (Hl _ _ Ha).
  - eapply IH; [apply Hp| |exact Hrun]; [|now split]. intros a Ha. now apply (Hl _ _ Ha).
  - destruct Hp as (Hk & Ha & Hp). eapply IH; [exact Hp| |exact Hrun]. split; [exact Hc|].
    cbn [with_accounts vs_accounts]. now apply typed_insert.
  - eapply IH; [apply Hp| |exact Hrun]. now split.
  - eapply IH; [apply Hp| |exact Hrun]. now split.
  - eapply IH; [apply Hp| |exact Hrun]. now split.
  - destruct Hc as (H1 & H2 & H3 & H4 & H5).
    eapply IH; [| |exact Hrun]; [now apply Hp|]. split; [|exact Hl]. now repeat split.
  - destruct Hp as (Hi & Hb & Hl0 & Hp). destruct Hc as (H1 & H2 & H3 & H4 & H5).
    eapply IH; [exact Hp| |exact Hrun]. split; [|exact Hl]. now repeat split.
Qed.

(** ** The programs of the ledger *)

Lemma keeps_ok_or {X} (Q : X -> Prop) (o : option X) e : if_some Q o -> keeps Q (ok_or o e).
Proof. destruct o; cbn; auto. Qed.
Lemma keeps_ok_or_any {X} (o : option X) e : keeps (fun x => o = Some x) (ok_or o e).
Proof. destruct o; cbn; auto. Qed.
Lemma keeps_lift {X} (r : result X panic) : keeps (fun x => r = Ok x) (lift r).
Proof. destruct r; cbn; auto. Qed.
Lemma keeps_ensure b e : keeps any (ensure b e).
Proof. destruct b; exact I. Qed.

Lemma keeps_credit k x : is_address k -> keeps any (credit k x).
Proof.
  intros Hk. cbn. split; [exact Hk|]. intros a (H1 & H2 & H3 & H4). unfold u256_add.
  destruct (N.ltb_spec (acc_balance a + x) two256) as [H|H]; cbn; [|exact I].
  split; [exact Hk|]. split; [|exact I]. repeat split; cbn; assumption.
Qed.
Lemma keeps_debit k x : is_address k -> keeps any (debit k x).
Proof.
  intros Hk. cbn. split; [exact Hk|]. intros a (H1 & H2 & H3 & H4). unfold u256_sub.
  destruct (N.leb_spec x (acc_balance a)) as [H|H]; cbn; [|exact I].
  split; [exact Hk|]. split; [|exact I]. repeat split; cbn; try assumption.
  unfold is_word in *. eapply N.le_lt_trans; [|exact H1]. lia.
Qed.
Lemma keeps_balance_of k : keeps any (balance_of k).
Proof. cbn. intros. exact I. Qed.
Lemma keeps_check_variant z v : keeps any (check_variant z v).
Proof.
  eapply keeps_bind; [apply keeps_ok_or_any|]. intros. apply keeps_ensure.
Qed.
Lemma keeps_check_domain z v : keeps any (check_domain z v).
Proof.
  eapply keeps_bind; [apply keeps_ok_or_any|]. intros. cbn. intros. apply keeps_ensure.
Qed.
Lemma keeps_check_fresh z : keeps any (check_fresh z).
Proof. cbn. intros. apply keeps_ensure. Qed.
Lemma keeps_check_request_id z b : keeps any (check_request_id z b).
Proof. apply keeps_ensure. Qed.
Lemma keeps_validate a b c : keeps any (validate_onchain_tx a b c).
Proof.
  cbn. intros. eapply keeps_bind; [apply keeps_ensure|]. intros.
  eapply keeps_bind; [apply keeps_ensure|]. intros. apply keeps_ensure.
Qed.
Lemma u64_succ_lt x : is_u64 (u64_succ x).
Proof. unfold is_u64, u64_succ, two64. apply N.mod_lt. now apply N.pow_nonzero. Qed.
Lemma keeps_advance b l : is_u64 b -> is_u64 l -> keeps any (advance_cursor b l).
Proof. intros. cbn. intros. repeat split; try assumption. apply u64_succ_lt. Qed.
Lemma keeps_address bs : is_bytes bs -> keeps is_address (parse_address bs).
Proof.
  intros [H _]. apply keeps_ok_or. intros a Ha. unfold address_of_bytes in Ha.
  destruct (Nat.eqb_spec (length bs) 20) as [Hl|]; [|discriminate]. injection Ha as <-.
  apply from_be_lt in H. rewrite Hl in H. exact H.
Qed.
Lemma keeps_amount E s e : env_ok E -> keeps is_word (parse_amount E s e).
Proof. intros HE. apply keeps_ok_or. intros a Ha. exact (parse_u256_lt E HE _ _ Ha). Qed.
Lemma keeps_tx_insert k b : keeps any (tx_insert k b).
Proof. exact I. Qed.
Lemma keeps_format z : keeps any (parse_format z).
Proof. apply keeps_ok_or. intros ? ?. exact I. Qed.
Lemma keeps_verify E m j s f : env_ok E -> keeps is_address (lift (verify_signed_message E m j s f)).
Proof.
  intros HE. assert (forall m', keeps is_address (lift (eth_sign_verify E m' s))) as Hs.
  { intros m'. unfold eth_sign_verify. destruct (ecrecover E m' s) eqn:He; cbn; [|exact I].
    exact (ecrecover_lt E HE _ _ _ He). }
  destruct f; cbn; [exact I|apply Hs|]. destruct j; [apply Hs|exact I].
Qed.

(** The values passed on by the checks of a clear are in the range of their Rust types (used in proofs only). *)
Definition ctx_ok (x : clear_ctx) : Prop :=
  is_address (cc_requester x) /\ is_address (cc_prover x) /\ is_address (cc_prover_owner x) /\
  is_bytes (rb_treasury (cc_request x)).

(** The receipt of an outcome is in the range of its Rust type (used in proofs only). *)
Definition outcome_ok (o : outcome) : Prop :=
  match o with Applied (Some r) => typed_receipt r | _ => True end.

Ltac keep :=
  match goal with
  | |- keeps _ (bind (credit _ _) _) => eapply keeps_bind; [apply keeps_credit; try assumption|intros _ _]
  | |- keeps _ (bind (debit _ _) _) => eapply keeps_bind; [apply keeps_debit; try assumption|intros _ _]
  | |- keeps _ (bind (balance_of _) _) => eapply keeps_bind; [apply keeps_balance_of|intros ? _]
  | |- keeps _ (bind (check_variant _ _) _) => eapply keeps_bind; [apply keeps_check_variant|intros _ _]
  | |- keeps _ (bind (check_domain _ _) _) => eapply keeps_bind; [apply keeps_check_domain|intros _ _]
  | |- keeps _ (bind (check_fresh _) _) => eapply keeps_bind; [apply keeps_check_fresh|intros _ _]
  | |- keeps _ (bind (check_request_id _ _) _) => eapply keeps_bind; [apply keeps_check_request_id|intros _ _]
  | |- keeps _ (bind (validate_onchain_tx _ _ _) _) => eapply keeps_bind; [apply keeps_validate|intros _ _]
  | |- keeps _ (bind (advance_cursor _ _) _) =>
      eapply keeps_bind; [apply keeps_advance; try assumption|intros _ _]
  | |- keeps _ (bind (parse_address _) _) => eapply keeps_bind; [apply keeps_address|intros ? ?]
  | |- keeps _ (bind (parse_amount _ _ _) _) => eapply keeps_bind; [apply keeps_amount; assumption|intros ? ?]
  | |- keeps _ (bind (parse_format _) _) => eapply keeps_bind; [apply keeps_format|intros ? _]
  | |- keeps _ (bind (tx_insert _ _) _) => eapply keeps_bind; [apply keeps_tx_insert|intros _ _]
  | |- keeps _ (bind (ensure _ _) _) => eapply keeps_bind; [apply keeps_ensure|intros _ _]
  | |- keeps _ (bind (lift (verify_signed_message _ _ _ _ _)) _) =>
      eapply keeps_bind; [apply keeps_verify; assumption|intros ? ?]
  | |- keeps _ (bind (lift _) _) => eapply keeps_bind; [apply keeps_lift|intros ? ?]
  | |- keeps _ (bind (ok_or _ _) _) => eapply keeps_bind; [apply keeps_ok_or_any|intros ? ?]
  | |- keeps _ (bind (acc_entry _) _) => cbn [bind acc_entry keeps]; split; [try assumption|intros ? ?]
  | |- keeps _ (bind (acc_get _) _) => cbn [bind acc_get keeps]; intros ? ?
  | |- keeps _ (bind (acc_get_mut _) _) => cbn [bind acc_get_mut keeps]; intros ? ?
  | |- keeps _ (bind (acc_put _ _) _) =>
      cbn [bind acc_put keeps]; split; [try assumption|split; [|]]
  | |- keeps _ (AccGet _ _) => cbn [keeps]; intros ? ?
  | |- keeps _ (bind (Ret _) _) => cbn [bind]
  | |- keeps _ (if ?b then _ else _) => destruct b
  end; cbv beta iota zeta.

Ltac found_account :=
  cbv beta in *;
  match goal with
  | H : if_some _ ?o, H' : ?o = Some _ |- _ => destruct (H _ H') as [? (? & ? & ? & ?)]; clear H'; try found_account
  end.

Lemma keeps_execute E t : env_ok E -> typed_tx t -> keeps outcome_ok (execute_inner E t).
Proof.
  intros HE Ht. destruct t as [d|c|d|t|c|w]; cbn [execute_inner typed_tx] in *.
  - destruct Ht as (H1 & H2 & H3 & H4 & H5). unfold exec_deposit. repeat keep. cbn. now repeat split.
  - destruct Ht as (H1 & H2 & H3 & H4 & H5 & H6). unfold exec_create_prover. repeat keep.
    + destruct H as (? & ? & ? & ?). now repeat split.
    + cbn. now repeat split.
  - unfold exec_delegate. keep. destruct (Ht _ H) as (H1 & H2 & H3 & H4 & H5 & H6 & H7).
    repeat keep; try assumption; try exact I.
    found_account. now repeat split.
  - unfold exec_transfer. keep. destruct (Ht _ H) as (H1 & H2 & H3 & H4 & H5 & H6 & H7).
    repeat keep; try assumption; try exact I.
  - unfold exec_clear. eapply (keeps_bind ctx_ok).
    + destruct Ht as (Hr & Hb & _). unfold clear_checks. keep. keep. cbv beta in *.
      destruct (Hb _ H0) as (_ & _ & _ & _ & Hbp & _).
      destruct (Hr _ H) as (_ & _ & _ & _ & _ & _ & _ & _ & _ & _ & _ & _ & Hra & Hre & _ & _ & _ & _ & _ & Hrt).
      clear H H0. repeat keep; try assumption.
      found_account. unfold ctx_ok. cbn [keeps cc_requester cc_prover cc_prover_owner cc_request]. auto.
    + intros x (H1 & H2 & H3 & H4). destruct (Z.eqb _ _).
      * unfold clear_punish. repeat keep; try assumption; exact I.
      * keep. eapply (keeps_bind any).
        -- unfold clear_fulfillment. repeat keep.
           eapply (keeps_bind any); [destruct (rb_public_values_hash _); repeat keep; exact I|].
           intros pvh _. keep. keep.
           match goal with |- context [bind (ok_or (cl_verify c) _) ?f] =>
             assert (Hsig : keeps any (bind (ok_or (cl_verify c) MissingVerifierSignature) f)) end.
           { keep. keep. unfold parse_address. keep. apply keeps_ensure. }
           match goal with |- keeps _ (match ?b with _ => _ end) => destruct b end;
             match goal with |- keeps _ (match ?b with _ => _ end) => destruct b end;
             try exact I; try apply keeps_ensure; exact Hsig.
        -- intros _ _. unfold clear_pay. repeat keep; try exact I; try assumption.
           match goal with |- keeps _ (let '(_, _) := ?y in _) => destruct y as [[p1 p2] p3] end.
           repeat keep; try exact I; assumption.
  - unfold exec_withdraw. keep. destruct (Ht _ H) as (H1 & H2 & H3 & H4 & H5 & H6 & H7).
    repeat keep; try assumption; try exact I; cbn; now split.
Qed.

Lemma execute_map_typed E t l l' r : env_ok E -> typed_tx t -> typed_ledger l ->
  execute_map E t l = (l', r) -> typed_ledger l' /\ typed_result r.
Proof.
  intros HE Ht Hl H. unfold execute_map, execute in H.
  destruct (run _ _ _ l) as [l1 r1] eqn:Hrun.
  destruct (run_typed outcome_ok (execute_inner E t) l l1 r1 (keeps_execute E t HE Ht) Hl Hrun) as [[H1 H2] H3].
  assert (Hb : typed_ledger (bump_tx_id l1)).
  { split; [|exact H2]. destruct H1 as (? & ? & ? & ? & ?). repeat split; cbn; try assumption. apply u64_succ_lt. }
  destruct r1 as [[o|v]|e]; apply pair_equal_spec in H as [<- <-]; split; try assumption; try exact I.
  - exact (H3 _ eq_refl).
  - split; assumption.
Qed.

Lemma typed_contents s : typed_full s <-> typed_ledger (contents s).
Proof. unfold typed_full, typed_ledger, typed_counters, accounts. cbn. reflexivity. Qed.

Lemma execute_full_typed E t s s' r : env_ok E -> typed_tx t -> typed_full s ->
  execute_full E t s = (s', r) -> typed_full s' /\ typed_result r.
Proof.
  intros HE Ht Hs H. apply execute_contents in H.
  destruct (execute_map_typed E t (contents s) _ _ HE Ht (proj1 (typed_contents s) Hs) H) as [H1 H2].
  split; [now apply typed_contents|exact H2].
Qed.

Lemma run_batch_typed E txs : forall s s' rs, env_ok E -> Forall typed_tx txs -> typed_full s ->
  run_batch E s txs = (s', rs) -> typed_full s' /\ Forall typed_result rs.
Proof.
  induction txs as [|t txs IH]; intros s s' rs HE Ht Hs H; cbn [run_batch] in H.
  - apply pair_equal_spec in H as [<- <-]. split; [exact Hs|constructor].
  - destruct (execute_full E t s) as [s1 r] eqn:He, (run_batch E s1 txs) as [s2 rs2] eqn:Hb.
    apply pair_equal_spec in H as [<- <-]. apply Forall_cons in Ht as [Ht Hts].
    destruct (execute_full_typed _ _ _ _ _ HE Ht Hs He) as [Hs1 Hr].
    destruct (IH _ _ _ HE Hts Hs1 Hb) as [Hs2 Hrs]. split; [exact Hs2|now constructor].
Qed.

Lemma batch_receipts_typed rs : Forall typed_result rs -> Forall typed_receipt (batch_receipts rs).
Proof.
  induction 1 as [|r rs Hr _ IH]; [constructor|]. destruct r as [[r|]|v|e]; cbn in *; try exact IH.
  now constructor.
Qed.

Lemma history_typed E s evs s' : env_ok E -> Forall typed_event evs -> typed_full s ->
  history E s evs s' -> typed_full s'.
Proof.
  intros HE Hev Hs H. induction H as [s|s ev s1 evs s' Hh _ IH]; [exact Hs|].
  apply Forall_cons in Hev as [Hev Hevs]. apply IH; [exact Hevs|]. clear IH Hevs.
  destruct ev as [t r|k|k|k|k|];
    [inversion Hh; subst; now apply (execute_full_typed E t s s1 r)|
     apply typed_contents; rewrite (happens_other E s _ s1 Hh) by discriminate; now apply typed_contents..].
Qed.

Lemma new_typed E domain : is_word domain -> typed_full (full_new E domain).
Proof.
  intros Hd. split; [|intros k a Ha; now apply (lookup_empty_Some (M := gmap N) k a) in Ha].
  repeat split; [exact Hd|..]; cbn; unfold is_u64; now apply (N.pow_lt_mono_r 2 0 64) || now apply N.neq_0_lt_0, N.pow_nonzero.
Qed.
