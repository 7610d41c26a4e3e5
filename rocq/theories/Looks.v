(** Which keys the ledger looks up. *)
From Verif Require Export Typed LiveSpec.
From Verif Require Import Bytes.
From Coq Require Import ZifyBool ZifyN ZifyNat.
Open Scope N_scope.
Local Opaque request_index.

(** As [keeps] of [Typed.v], and the keys of all accounts looked up are addresses, those of all flags satisfy [R]. *)
Fixpoint looks (R : N -> Prop) {X} (Q : X -> Prop) (p : prog X) : Prop :=
  match p with
  | Ret x => Q x
  | Fail _ => True
  | AccEntry k c => is_address k /\ forall a, typed_account a -> looks R Q (c a)
  | AccGet k c | AccGetMut k c =>
      is_address k /\ forall o, if_some (fun a => is_address k /\ typed_account a) o -> looks R Q (c o)
  | AccPut k a c => is_address k /\ typed_account a /\ looks R Q c
  | TxEntry k c => R k /\ forall b, looks R Q (c b)
  | TxInsert k b c => R k /\ looks R Q c
  | GetDomain c => forall d, looks R Q (c d)
  | GetCursor c => forall i b l, is_u64 i -> is_u64 b -> is_u64 l -> looks R Q (c i b l)
  | SetCursor i b l c => is_u64 i /\ is_u64 b /\ is_u64 l /\ looks R Q c
  end.

Lemma looks_bind (R : N -> Prop) {X Y} (P : X -> Prop) (Q : Y -> Prop) (p : prog X) (f : X -> prog Y) :
  looks R P p -> (forall x, P x -> looks R Q (f x)) -> looks R Q (bind p f).
Proof.
  induction p as [x|e|k c IH|k c IH|k c IH|k a c IH|k c IH|k b c IH|c IH|c IH|i b l c IH];
    intros Hp Hf; cbn [looks bind] in *; auto;
    repeat match goal with H : _ /\ _ |- _ => destruct H end; auto 7.
Qed.

Lemma looks_more (R R' : N -> Prop) {X} (Q : X -> Prop) (p : prog X) :
  (forall k, R k -> R' k) -> looks R Q p -> looks R' Q p.
Proof.
  intros HR.
  induction p as [x|e|k c IH|k c IH|k c IH|k a c IH|k c IH|k b c IH|c IH|c IH|i b l c IH];
    intros Hp; cbn [looks] in *; auto;
    repeat match goal with H : _ /\ _ |- _ => destruct H end; auto 7.
Qed.

(** All keys touched so far are like this (used in proofs only). *)
Definition asked_ok (R : N -> Prop) (s : full_state) : Prop :=
  (forall k, k ∈ touched_accounts s -> is_address k) /\ (forall k, k ∈ touched_requests s -> R k).

Lemma run_asked E (R : N -> Prop) {X} (Q : X -> Prop) (p : prog X) : forall s s' r,
  looks R Q p -> typed_full s -> asked_ok R s -> run_full E p s = (s', r) -> asked_ok R s'.
Proof.
  unfold run_full.
  induction p as [x|e|k c IH|k c IH|k c IH|k a c IH|k c IH|k b c IH|c IH|c IH|i b l0 c IH];
    intros s s' r Hp [Hc Hl] [HA HR] Hrun; cbn [looks run] in *.
  - apply pair_equal_spec in Hrun as [<- <-]. now split.
  - apply pair_equal_spec in Hrun as [<- <-]. now split.
  - destruct Hp as [Hk Hp].
    assert (Ha : typed_account (default account_default (mk_leaves (vs_accounts s) !! address_index k))).
    { destruct (mk_leaves (vs_accounts s) !! address_index k) as [a|] eqn:He; [now apply (Hl _ _ He)|apply typed_default]. }
    eapply IH; [apply Hp, Ha| | |exact Hrun].
    + split; [exact Hc|]. unfold accounts. cbn. now apply typed_insert.
    + split; [|exact HR]. unfold touched_accounts. cbn. intros j. rewrite elem_of_union, elem_of_singleton.
      intros [->|Hj]; [exact Hk|now apply HA].
  - destruct Hp as [Hk Hp]. eapply IH; [apply Hp| | |exact Hrun].
    + intros a Ha. now apply (Hl _ _ Ha).
    + now split.
    + split; [|exact HR]. unfold touched_accounts. cbn. intros j. rewrite elem_of_union, elem_of_singleton.
      intros [->|Hj]; [exact Hk|now apply HA].
  - destruct Hp as [Hk Hp]. eapply IH; [apply Hp| | |exact Hrun].
    + intros a Ha. now apply (Hl _ _ Ha).
    + now split.
    + split; [|exact HR]. unfold touched_accounts. cbn. intros j. rewrite elem_of_union, elem_of_singleton.
      intros [->|Hj]; [exact Hk|now apply HA].
  - destruct Hp as (Hk & Ha & Hp). eapply IH; [exact Hp| | |exact Hrun].
    + split; [exact Hc|]. unfold accounts. cbn. now apply typed_insert.
    + now split.
  - destruct Hp as [Hk Hp]. eapply IH; [apply Hp| | |exact Hrun].
    + now split.
    + split; [exact HA|]. unfold touched_requests. cbn. intros j. rewrite elem_of_union, elem_of_singleton.
      intros [->|Hj]; [exact Hk|now apply HR].
  - destruct Hp as [Hk Hp]. eapply IH; [exact Hp| | |exact Hrun].
    + now split.
    + split; [exact HA|]. unfold touched_requests. cbn. intros j. rewrite elem_of_union, elem_of_singleton.
      intros [->|Hj]; [exact Hk|now apply HR].
  - eapply IH; [apply Hp| | |exact Hrun]; now split.
  - destruct Hc as (H1 & H2 & H3 & H4 & H5).
    eapply IH; [| | |exact Hrun]; [now apply Hp| |]; split; try assumption. now repeat split.
  - destruct Hp as (Hi & Hb & Hl0 & Hp). destruct Hc as (H1 & H2 & H3 & H4 & H5).
    eapply IH; [exact Hp| | |exact Hrun]; split; try assumption. now repeat split.
Qed.

(** ** The programs of the ledger *)

Lemma looks_ok_or R {X} (Q : X -> Prop) (o : option X) e : if_some Q o -> looks R Q (ok_or o e).
Proof. destruct o; cbn; auto. Qed.
Lemma looks_ok_or_any R {X} (o : option X) e : looks R (fun x => o = Some x) (ok_or o e).
Proof. destruct o; cbn; auto. Qed.
Lemma looks_lift R {X} (r : result X panic) : looks R (fun x => r = Ok x) (lift r).
Proof. destruct r; cbn; auto. Qed.
Lemma looks_ensure R b e : looks R any (ensure b e).
Proof. destruct b; exact I. Qed.

Lemma looks_credit R k x : is_address k -> looks R any (credit k x).
Proof.
  intros Hk. cbn. split; [exact Hk|]. intros a (H1 & H2 & H3 & H4). unfold u256_add.
  destruct (N.ltb_spec (acc_balance a + x) two256) as [H|H]; cbn; [|exact I].
  split; [exact Hk|]. split; [|exact I]. repeat split; cbn; assumption.
Qed.
Lemma looks_debit R k x : is_address k -> looks R any (debit k x).
Proof.
  intros Hk. cbn. split; [exact Hk|]. intros a (H1 & H2 & H3 & H4). unfold u256_sub.
  destruct (N.leb_spec x (acc_balance a)) as [H|H]; cbn; [|exact I].
  split; [exact Hk|]. split; [|exact I]. repeat split; cbn; try assumption.
  unfold is_word in *. eapply N.le_lt_trans; [|exact H1]. lia.
Qed.
Lemma looks_balance_of R k : is_address k -> looks R any (balance_of k).
Proof. intros Hk. cbn. split; [exact Hk|]. intros. exact I. Qed.
Lemma looks_check_variant R z v : looks R any (check_variant z v).
Proof.
  eapply looks_bind; [apply looks_ok_or_any|]. intros. apply looks_ensure.
Qed.
Lemma looks_check_domain R z v : looks R any (check_domain z v).
Proof.
  eapply looks_bind; [apply looks_ok_or_any|]. intros. cbn. intros. apply looks_ensure.
Qed.
Lemma looks_check_fresh (R : N -> Prop) z : R z -> looks R any (check_fresh z).
Proof. intros Hz. cbn. split; [exact Hz|]. intros. apply looks_ensure. Qed.
Lemma looks_check_request_id R z b : looks R any (check_request_id z b).
Proof. apply looks_ensure. Qed.
Lemma looks_validate R a b c : looks R any (validate_onchain_tx a b c).
Proof.
  cbn. intros. eapply looks_bind; [apply looks_ensure|]. intros.
  eapply looks_bind; [apply looks_ensure|]. intros. apply looks_ensure.
Qed.
Lemma looks_advance R b l : is_u64 b -> is_u64 l -> looks R any (advance_cursor b l).
Proof. intros. cbn. intros. repeat split; try assumption. apply u64_succ_lt. Qed.
Lemma looks_address R bs : is_bytes bs -> looks R is_address (parse_address bs).
Proof.
  intros [H _]. apply looks_ok_or. intros a Ha. unfold address_of_bytes in Ha.
  destruct (Nat.eqb_spec (length bs) 20) as [Hl|]; [|discriminate]. injection Ha as <-.
  apply from_be_lt in H. rewrite Hl in H. exact H.
Qed.
Lemma looks_amount R E s e : env_ok E -> looks R is_word (parse_amount E s e).
Proof. intros HE. apply looks_ok_or. intros a Ha. exact (parse_u256_lt E HE _ _ Ha). Qed.
Lemma looks_tx_insert (R : N -> Prop) k b : R k -> looks R any (tx_insert k b).
Proof. intros Hk. cbn. now split. Qed.
Lemma looks_format R z : looks R (fun f => format_of_tag z = Some f) (parse_format z).
Proof. apply looks_ok_or_any. Qed.
Lemma looks_verify R E m j s f : env_ok E ->
  looks R (fun x => is_address x /\ verify_signed_message E m j s f = Ok x) (lift (verify_signed_message E m j s f)).
Proof.
  intros HE. assert (forall m', looks R is_address (lift (eth_sign_verify E m' s))) as Hs.
  { intros m'. unfold eth_sign_verify. destruct (ecrecover E m' s) eqn:He; cbn; [|exact I].
    exact (ecrecover_lt E HE _ _ _ He). }
  assert (Ha : looks R is_address (lift (verify_signed_message E m j s f))).
  { destruct f; cbn; [exact I|apply Hs|]. destruct j; [apply Hs|exact I]. }
  destruct (verify_signed_message E m j s f); cbn in *; [now split|exact I].
Qed.

Ltac ask :=
  match goal with
  | |- looks _ _ (bind (credit _ _) _) => eapply looks_bind; [apply looks_credit; try assumption|intros _ _]
  | |- looks _ _ (bind (debit _ _) _) => eapply looks_bind; [apply looks_debit; try assumption|intros _ _]
  | |- looks _ _ (bind (balance_of _) _) => eapply looks_bind; [apply looks_balance_of; try assumption|intros ? _]
  | |- looks _ _ (bind (check_variant _ _) _) => eapply looks_bind; [apply looks_check_variant|intros _ _]
  | |- looks _ _ (bind (check_domain _ _) _) => eapply looks_bind; [apply looks_check_domain|intros _ _]
  | |- looks _ _ (bind (check_fresh _) _) => eapply looks_bind; [apply looks_check_fresh; try assumption|intros _ _]
  | |- looks _ _ (bind (check_request_id _ _) _) => eapply looks_bind; [apply looks_check_request_id|intros _ _]
  | |- looks _ _ (bind (validate_onchain_tx _ _ _) _) => eapply looks_bind; [apply looks_validate|intros _ _]
  | |- looks _ _ (bind (advance_cursor _ _) _) =>
      eapply looks_bind; [apply looks_advance; try assumption|intros _ _]
  | |- looks _ _ (bind (parse_address _) _) => eapply looks_bind; [apply looks_address|intros ? ?]
  | |- looks _ _ (bind (parse_amount _ _ _) _) => eapply looks_bind; [apply looks_amount; assumption|intros ? ?]
  | |- looks _ _ (bind (parse_format _) _) => eapply looks_bind; [apply looks_format|intros ? ?]
  | |- looks _ _ (bind (tx_insert _ _) _) => eapply looks_bind; [apply looks_tx_insert; try assumption|intros _ _]
  | |- looks _ _ (bind (ensure _ _) _) => eapply looks_bind; [apply looks_ensure|intros _ _]
  | |- looks _ _ (bind (lift (verify_signed_message _ _ _ _ _)) _) =>
      eapply looks_bind; [apply looks_verify; assumption|intros ? [? ?]]
  | |- looks _ _ (bind (lift _) _) => eapply looks_bind; [apply looks_lift|intros ? ?]
  | |- looks _ _ (bind (ok_or _ _) _) => eapply looks_bind; [apply looks_ok_or_any|intros ? ?]
  | |- looks _ _ (bind (acc_entry _) _) => cbn [bind acc_entry looks]; split; [try assumption|intros ? ?]
  | |- looks _ _ (bind (acc_get _) _) => cbn [bind acc_get looks]; split; [try assumption|intros ? ?]
  | |- looks _ _ (bind (acc_get_mut _) _) => cbn [bind acc_get_mut looks]; split; [try assumption|intros ? ?]
  | |- looks _ _ (bind (acc_put _ _) _) =>
      cbn [bind acc_put looks]; split; [try assumption|split; [|]]
  | |- looks _ _ (AccGet _ _) => cbn [looks]; split; [try assumption|intros ? ?]
  | |- looks _ _ (bind (Ret _) _) => cbn [bind]
  | |- looks _ _ (if ?b then _ else _) => destruct b
  end; cbv beta iota zeta.

Ltac look :=
  cbv beta in *;
  match goal with
  | |- remembered _ _ _ => do 2 eexists; split; [eapply signed_by_intro; eassumption|reflexivity]
  end.

Lemma looks_execute E t : env_ok E -> typed_tx t -> looks (remembered E t) outcome_ok (execute_inner E t).
Proof.
  intros HE Ht. destruct t as [d|c|d|t|c|w]; cbn [execute_inner typed_tx] in *.
  - destruct Ht as (H1 & H2 & H3 & H4 & H5). unfold exec_deposit. repeat ask. cbn. now repeat split.
  - destruct Ht as (H1 & H2 & H3 & H4 & H5 & H6). unfold exec_create_prover. repeat ask.
    + destruct H as (? & ? & ? & ?). now repeat split.
    + cbn. now repeat split.
  - unfold exec_delegate. ask. destruct (Ht _ H) as (H1 & H2 & H3 & H4 & H5 & H6 & H7).
    repeat ask; try assumption; try exact I; try look.
    found_account. now repeat split.
  - unfold exec_transfer. ask. destruct (Ht _ H) as (H1 & H2 & H3 & H4 & H5 & H6 & H7).
    repeat ask; try assumption; try exact I; look.
  - unfold exec_clear. eapply (looks_bind _ (fun x => ctx_ok x /\ remembered E (TxClear c) (cc_request_id x))).
    + destruct Ht as (Hr & Hb & _). unfold clear_checks. ask. ask. cbv beta in *.
      destruct (Hb _ H0) as (_ & _ & _ & _ & Hbp & _).
      destruct (Hr _ H) as (_ & _ & _ & _ & _ & _ & _ & _ & _ & _ & _ & _ & Hra & Hre & _ & _ & _ & _ & _ & Hrt).
      repeat ask; try assumption; try look.
      found_account. unfold ctx_ok.
      cbn [looks cc_requester cc_prover cc_prover_owner cc_request cc_request_id]. split; [auto|look].
    + intros x ((H1 & H2 & H3 & H4) & Hid). destruct (Z.eqb _ _).
      * unfold clear_punish. repeat ask; try assumption; exact I.
      * ask. eapply (looks_bind _ any).
        -- unfold clear_fulfillment. repeat ask.
           eapply (looks_bind _ any); [destruct (rb_public_values_hash _); repeat ask; exact I|].
           intros pvh _. ask. ask.
           match goal with |- context [bind (ok_or (cl_verify c) _) ?f] =>
             assert (Hsig : looks (remembered E (TxClear c)) any (bind (ok_or (cl_verify c) MissingVerifierSignature) f)) end.
           { ask. ask. unfold parse_address. ask. apply looks_ensure. }
           match goal with |- looks _ _ (match ?b with _ => _ end) => destruct b end;
             match goal with |- looks _ _ (match ?b with _ => _ end) => destruct b end;
             try exact I; try apply looks_ensure; exact Hsig.
        -- intros _ _. unfold clear_pay. repeat ask; try exact I; try assumption.
           match goal with |- looks _ _ (let '(_, _) := ?y in _) => destruct y as [[p1 p2] p3] end.
           repeat ask; try exact I; assumption.
  - unfold exec_withdraw. ask. destruct (Ht _ H) as (H1 & H2 & H3 & H4 & H5 & H6 & H7).
    repeat ask; try assumption; try exact I; try look; cbn; now split.
Qed.

