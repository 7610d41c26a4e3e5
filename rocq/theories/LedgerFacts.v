(** Facts about single steps of the ledger, including steps that panic. *)
From Verif Require Export Sim Bytes.
From Coq Require Import ZifyBool ZifyN ZifyNat.
Open Scope N_scope.
Local Opaque request_index.

(** ** Facts that hold of every run, also of one that panics *)

(** Programs only ever store [true] flags and balances that fit. *)
Section tame.
  Context (chk : bool).

  (** The balance fits, if balances are to be checked. *)
  Definition fits (a : account) : Prop := chk = true -> acc_balance a < two256.

Fixpoint tame {X} (p : prog X) : Prop :=
  match p with
  | Ret _ | Fail _ => True
  | AccEntry k c => forall a, fits a -> tame (c a)
  | AccGet k c | AccGetMut k c => forall o, (forall a, o = Some a -> fits a) -> tame (c o)
  | AccPut k a c => fits a /\ tame c
  | TxEntry k c => forall b, tame (c b)
  | TxInsert k b c => b = true /\ tame c
  | GetDomain c => forall d, tame (c d)
  | GetCursor c => forall i b l, tame (c i b l)
  | SetCursor i b l c => tame c
  end.

Lemma tame_bind {X Y} (p : prog X) (f : X -> prog Y) :
  tame p -> (forall x, tame (f x)) -> tame (bind p f).
Proof. induction p; cbn; intuition. Qed.

Lemma tame_ok_or {X} (o : option X) e : tame (ok_or o e).
Proof. destruct o; exact I. Qed.
Lemma tame_lift {X} (o : result X panic) : tame (lift o).
Proof. destruct o; exact I. Qed.
Lemma tame_ensure b e : tame (ensure b e).
Proof. destruct b; exact I. Qed.
Lemma tame_credit k x : tame (credit k x).
Proof.
  cbn. intros a Ha. unfold u256_add. destruct (N.ltb_spec (acc_balance a + x) two256); cbn; auto.
  split; [|exact I]. intros _. assumption.
Qed.
Lemma tame_debit k x : tame (debit k x).
Proof.
  cbn. intros a Ha. unfold u256_sub. destruct (N.leb_spec x (acc_balance a)); cbn; auto.
  split; [|exact I]. intros Hc. specialize (Ha Hc). cbn. lia.
Qed.
Lemma tame_balance_of k : tame (balance_of k).
Proof. cbn. intros. destruct o; exact I. Qed.
Lemma tame_check_variant z v : tame (check_variant z v).
Proof. apply tame_bind; intros; [apply tame_ok_or|apply tame_ensure]. Qed.
Lemma tame_check_domain z v : tame (check_domain z v).
Proof. apply tame_bind; intros; [apply tame_ok_or|]. cbn. intros. apply tame_ensure. Qed.
Lemma tame_check_fresh z : tame (check_fresh z).
Proof. cbn. intros. apply tame_ensure. Qed.
Lemma tame_acc_get k : tame (acc_get k).
Proof. cbn. auto. Qed.
Lemma tame_tx_insert id : tame (tx_insert id true).
Proof. cbn. auto. Qed.
Lemma tame_validate a b c : tame (validate_onchain_tx a b c).
Proof.
  cbn. intros. repeat (apply tame_bind; intros); apply tame_ensure.
Qed.
Lemma tame_advance b l : tame (advance_cursor b l).
Proof. cbn. auto. Qed.

Ltac tame :=
  match goal with
  | |- tame (bind (acc_entry _) _) => cbn [bind acc_entry tame]; intros
  | |- tame (bind (acc_get_mut _) _) => cbn [bind acc_get_mut tame]; intros
  | |- tame (bind (ok_or ?o _) _) => is_var o; destruct o; cbn [bind ok_or tame]; [|exact I]
  | |- tame (bind (acc_put _ _) _) => cbn [bind acc_put tame]; split; [solve [unfold fits in *; cbn; auto]|]
  | |- tame (bind _ _) => apply tame_bind; intros
  | |- tame (ok_or _ _) => apply tame_ok_or
  | |- tame (lift _) => apply tame_lift
  | |- tame (ensure _ _) => apply tame_ensure
  | |- tame (check_request_id _ _) => apply tame_ensure
  | |- tame (parse_address _) => apply tame_ok_or
  | |- tame (parse_format _) => apply tame_ok_or
  | |- tame (parse_amount _ _ _) => apply tame_ok_or
  | |- tame (credit _ _) => apply tame_credit
  | |- tame (debit _ _) => apply tame_debit
  | |- tame (balance_of _) => apply tame_balance_of
  | |- tame (check_variant _ _) => apply tame_check_variant
  | |- tame (check_domain _ _) => apply tame_check_domain
  | |- tame (check_fresh _) => apply tame_check_fresh
  | |- tame (acc_get _) => apply tame_acc_get
  | |- tame (tx_insert _ true) => apply tame_tx_insert
  | |- tame (validate_onchain_tx _ _ _) => apply tame_validate
  | |- tame (advance_cursor _ _) => apply tame_advance
  | |- True => exact I
  | |- tame (Ret _) => exact I
  | |- tame (Fail _) => exact I
  | |- tame (if ?b then _ else _) => destruct b
  | |- tame (match ?b with _ => _ end) => destruct b
  end; cbv beta iota zeta.

Lemma tame_execute E t : tame (execute_inner E t).
Proof.
  destruct t; cbn [execute_inner].
  - unfold exec_deposit. repeat tame.
  - unfold exec_create_prover. repeat tame.
  - unfold exec_delegate. repeat tame.
  - unfold exec_transfer. repeat tame.
  - unfold exec_clear, clear_checks, clear_punish, clear_fulfillment, clear_pay. repeat tame.
  - unfold exec_withdraw. repeat tame.
Qed.

End tame.

(** What every tame run guarantees. *)
Record tame_after (chk : bool) (s s' : ledger) : Prop := {
  ta_domain : vs_domain s' = vs_domain s;
  ta_tx_id : vs_tx_id s' = vs_tx_id s;
  ta_flags : forall i, vs_transactions s !! i = Some true -> vs_transactions s' !! i = Some true;
  ta_accounts : forall a, is_Some (vs_accounts s !! a) -> is_Some (vs_accounts s' !! a);
  ta_bounded : chk = true -> bounded (vs_accounts s) -> bounded (vs_accounts s')
}.

Section run.
  Context (chk : bool).

Lemma tame_after_refl s : tame_after chk s s.
Proof. constructor; auto. Qed.

Lemma tame_after_trans a b c : tame_after chk a b -> tame_after chk b c -> tame_after chk a c.
Proof. intros [] []; constructor; eauto; congruence. Qed.

Lemma tame_after_put (s : ledger) k a :
  fits chk a -> tame_after chk s (with_accounts (<[k := a]> (vs_accounts s)) s).
Proof.
  intros Ha. constructor; cbn; auto.
  - intros x Hx. apply lookup_insert_is_Some. destruct (decide (k = x)); auto.
  - intros Hc Hb x. rewrite bal_insert. destruct (k =? x); auto.
Qed.

Lemma tame_after_flag (s : ledger) k b :
  (vs_transactions s !! k = Some true -> b = true) ->
  tame_after chk s (with_transactions (<[k := b]> (vs_transactions s)) s).
Proof.
  intros Ha. constructor; cbn; auto.
  intros x Hx. destruct (decide (k = x)) as [->|Hne].
  - rewrite lookup_insert. f_equal. auto.
  - now rewrite lookup_insert_ne.
Qed.

Lemma fits_lookup (m : gmap N account) k :
  (chk = true -> bounded m) -> forall a, m !! k = Some a -> fits chk a.
Proof.
  intros Hb a Ha Hc. specialize (Hb Hc k). unfold bal, acct in Hb. now rewrite Ha in Hb.
Qed.

Lemma run_tame {X} (p : prog X) : forall s,
  tame chk p -> (chk = true -> bounded (vs_accounts s)) -> tame_after chk s (run_map p s).1.
Proof.
  unfold run_map.
  induction p as [x|e|k c IH|k c IH|k c IH|k a c IH|k c IH|k b c IH|c IH|c IH|i b l c IH];
    intros s Ht Hb; cbn [tame] in Ht; cbn [run].
  - apply tame_after_refl.
  - apply tame_after_refl.
  - cbn. unfold address_index.
    assert (Ha : fits chk (acct (vs_accounts s) k)) by (intros Hc; apply (Hb Hc)).
    pose proof (tame_after_put s k (acct (vs_accounts s) k) Ha) as H1.
    eapply tame_after_trans; [exact H1|]. apply IH; [apply Ht; exact Ha|].
    intros Hc. apply H1; auto.
  - cbn. destruct s as [? ? ? ? ? A T]. apply IH; [apply Ht|exact Hb].
    apply fits_lookup. exact Hb.
  - cbn. destruct s as [? ? ? ? ? A T]. apply IH; [apply Ht|exact Hb].
    apply fits_lookup. exact Hb.
  - destruct Ht as [Ha Ht]. cbn. unfold address_index.
    pose proof (tame_after_put s k a Ha) as H1.
    eapply tame_after_trans; [exact H1|]. apply IH; [exact Ht|]. intros Hc. apply H1; auto.
  - cbn.
    assert (H1 : tame_after chk s (with_transactions
      (<[request_index k := default false (vs_transactions s !! request_index k)]>
         (vs_transactions s)) s)).
    { apply tame_after_flag. now intros ->. }
    eapply tame_after_trans; [exact H1|]. apply IH; [apply Ht|]. intros Hc. apply H1; auto.
  - destruct Ht as [-> Ht]. cbn.
    pose proof (tame_after_flag s (request_index k) true (fun _ => eq_refl)) as H1.
    eapply tame_after_trans; [exact H1|]. apply IH; [exact Ht|]. intros Hc. apply H1; auto.
  - apply IH; auto.
  - apply IH; auto.
  - eapply tame_after_trans; [|apply IH; auto]. constructor; auto.
Qed.
End run.

(** ** Facts about steps that do not panic *)

Lemma signed_by_fun {B} E (bin : B -> bytes) json m b1 w1 b2 w2 :
  signed_by E bin json m b1 w1 -> signed_by E bin json m b2 w2 -> b1 = b2 /\ w1 = w2.
Proof.
  intros [Hb1 H1] [Hb2 H2]. assert (b1 = b2) as <- by congruence. split; [reflexivity|].
  destruct H1 as [[F1 R1]|[F1 (j1 & J1 & R1)]], H2 as [[F2 R2]|[F2 (j2 & J2 & R2)]]; congruence.
Qed.

Ltac sb_fun :=
  repeat match goal with
  | H1 : signed_by ?E ?b ?j ?m ?x ?y, H2 : signed_by ?E ?b ?j ?m ?x' ?y' |- _ =>
      let Ha := fresh in let Hb := fresh in
      destruct (signed_by_fun _ _ _ _ _ _ _ _ H1 H2) as [Ha Hb]; clear H2; try subst x'; try subst y'
  end.

Ltac some_fun :=
  repeat match goal with
  | H1 : ?a = Some ?x, H2 : ?a = Some ?y |- _ =>
      assert (x = y) by congruence; clear H2; subst
  end.

Lemma asks_fun E m t a a' : asks E m t a -> asks E m t a' -> a = a'.
Proof.
  intros H H'. destruct H; inversion H'; subst; clear H'; sb_fun; some_fun; try reflexivity;
    congruence.
Qed.

Lemma total_same m k a : acc_balance a = bal m k -> total_balance (<[k := a]> m) = total_balance m.
Proof. intros H. pose proof (total_insert m k a). lia. Qed.

Lemma step_total E s t s' r :
  lstep E s t s' r ->
  total_balance (vs_accounts s') + withdrawn E (t, r) = total_balance (vs_accounts s) + deposited (t, r).
Proof.
  intros H. destruct H; cbn [withdrawn deposited after_onchain after_signed vs_accounts];
    repeat match goal with
    | H : moves _ _ _ |- _ => apply moves_total in H; unfold net_total in H;
        cbn [payments fold_right] in H
    end; try lia.
  - rewrite total_same by reflexivity. lia.
  - rewrite total_same by reflexivity. lia.
  - match goal with H : withdraw_ok _ _ _ _ _ _ _ _ _ |- _ => destruct H as [[Hb _]] end.
    rewrite Hb. rewrite wk_amount. cbn [from_option id]. lia.
  - match goal with H : _ * _ < two256 |- _ => idtac end.
    assert (clear_cost x pgus * acc_bips pa / 10000 <= clear_cost x pgus).
    { apply N.div_le_upper_bound; [lia|]. rewrite N.mul_comm. apply N.mul_le_mono_r. assumption. }
    lia.
Qed.

Lemma step_asks E s t s' o :
  lstep E s t s' (ResOk o) ->
  exists a, asks E (vs_accounts s) t a /\
    forall who, Z.of_N (bal (vs_accounts s') who) = (Z.of_N (bal (vs_accounts s) who) + net (payments a) who)%Z.
Proof.
  intros H. inversion H; subst; clear H; cbn [after_onchain after_signed vs_accounts].
  - eexists. split; [apply asks_deposit|]. intros z. eapply moves_net; eassumption.
  - eexists. split; [apply asks_create_prover|]. intros z. rewrite bal_insert. cbn [payments net fold_right].
    subst act. destruct (N.eqb_spec (cp_prover (oc_action c)) z); subst; cbn [acc_balance]; lia.
  - match goal with H : delegate_ok _ _ _ _ _ _ _ _ |- _ => destruct H end.
    eexists. split; [eapply asks_delegate; eassumption|]. intros z. rewrite bal_insert.
    match goal with H : moves _ _ _ |- _ => eapply moves_net in H; rewrite <- H end.
    destruct (N.eqb_spec prover z); subst; reflexivity.
  - match goal with H : transfer_ok _ _ _ _ _ _ _ _ _ |- _ => destruct H end.
    eexists. split; [eapply asks_transfer; eassumption|]. intros z. eapply moves_net; eassumption.
  - match goal with H : withdraw_ok _ _ _ _ _ _ _ _ _ |- _ => destruct H end.
    eexists. split; [eapply asks_withdraw; eassumption|]. intros z. eapply moves_net; eassumption.
  - match goal with H : clear_authorised _ _ _ _ _ _ _ _ _ _ _ |- _ => destruct H end.
    match goal with H : clear_punishable _ _ _ |- _ => destruct H as [Hst (str & Hp1 & Hp2) _ _] end.
    eexists. split; [eapply asks_punish; eassumption|]. intros z. eapply moves_net; eassumption.
  - match goal with H : clear_authorised _ _ _ _ _ _ _ _ _ _ _ |- _ => destruct H end.
    match goal with H : clear_fulfilled _ _ _ _ _ _ _ _ |- _ => destruct H end.
    match goal with H : clear_priced _ _ _ |- _ => destruct H end.
    eexists. split; [eapply asks_clear; eassumption|]. intros z.
    assert (Ha : acct (vs_accounts s) (cc_prover x) = pa) by (unfold acct; now rewrite ca_prover_acct).
    rewrite Ha, <- ca_prover_owner. eapply moves_net; eassumption.
Qed.

Lemma step_meta E s t s' r :
  lstep E s t s' r ->
  vs_domain s' = vs_domain s /\ vs_tx_id s' = next_u64 (vs_tx_id s).
Proof. intros H; destruct H; split; reflexivity. Qed.

(** An on-chain transaction moves the cursor; a signed one retires its message. *)
Lemma step_kind E s t s' r :
  lstep E s t s' r ->
  (match t with
   | TxDeposit d => next_onchain s d /\ vs_onchain_tx_id s' = next_u64 (vs_onchain_tx_id s) /\
       vs_onchain_block s' = oc_block d /\ vs_onchain_log_index s' = oc_log_index d /\
       vs_transactions s' = vs_transactions s /\ exists o, r = ResOk o
   | TxCreateProver d => next_onchain s d /\ vs_onchain_tx_id s' = next_u64 (vs_onchain_tx_id s) /\
       vs_onchain_block s' = oc_block d /\ vs_onchain_log_index s' = oc_log_index d /\
       vs_transactions s' = vs_transactions s /\ exists o, r = ResOk o
   | _ => exists who bs, consumes E t who bs /\ unused (vs_transactions s) (message_id E who bs) /\
       vs_transactions s' = <[request_index (message_id E who bs) := true]> (vs_transactions s) /\
       vs_onchain_tx_id s' = vs_onchain_tx_id s /\
       vs_onchain_block s' = vs_onchain_block s /\ vs_onchain_log_index s' = vs_onchain_log_index s
   end).
Proof.
  intros H; destruct H; cbn [after_onchain after_signed vs_transactions vs_onchain_tx_id
    vs_onchain_block vs_onchain_log_index];
    try (split; [assumption|]; repeat split; eauto; fail).
  - match goal with H : delegate_ok _ _ _ _ _ _ _ _ |- _ => destruct H end.
    do 2 eexists. split; [econstructor; eassumption|]. auto.
  - match goal with H : delegate_ok _ _ _ _ _ _ _ _ |- _ => destruct H end.
    do 2 eexists. split; [econstructor; eassumption|]. auto.
  - match goal with H : transfer_ok _ _ _ _ _ _ _ _ _ |- _ => destruct H end.
    do 2 eexists. split; [econstructor; eassumption|]. auto.
  - match goal with H : transfer_ok _ _ _ _ _ _ _ _ _ |- _ => destruct H end.
    do 2 eexists. split; [econstructor; eassumption|]. auto.
  - match goal with H : withdraw_ok _ _ _ _ _ _ _ _ _ |- _ => destruct H end.
    do 2 eexists. split; [econstructor; eassumption|]. auto.
  - match goal with H : withdraw_ok _ _ _ _ _ _ _ _ _ |- _ => destruct H end.
    do 2 eexists. split; [econstructor; eassumption|]. auto.
  - match goal with H : clear_authorised _ _ _ _ _ _ _ _ _ _ _ |- _ => destruct H end.
    do 2 eexists. split; [econstructor; eassumption|]. rewrite <- ca_id. auto.
  - match goal with H : clear_authorised _ _ _ _ _ _ _ _ _ _ _ |- _ => destruct H end.
    do 2 eexists. split; [econstructor; eassumption|]. rewrite <- ca_id. auto.
  - match goal with H : clear_authorised _ _ _ _ _ _ _ _ _ _ _ |- _ => destruct H end.
    do 2 eexists. split; [econstructor; eassumption|]. rewrite <- ca_id. auto.
  - match goal with H : clear_authorised _ _ _ _ _ _ _ _ _ _ _ |- _ => destruct H end.
    do 2 eexists. split; [econstructor; eassumption|]. rewrite <- ca_id. auto.
Qed.

Lemma consumes_fun E t w1 b1 w2 b2 :
  consumes E t w1 b1 -> consumes E t w2 b2 -> w1 = w2 /\ b1 = b2.
Proof.
  intros H1 H2. destruct H1; inversion H2; subst; clear H2; sb_fun; auto.
Qed.

Lemma step_revert E s t s' v :
  lstep E s t s' (ResRevert v) ->
  vs_accounts s' = vs_accounts s /\
  exists who required, revert_data v = (who, required, bal (vs_accounts s) who) /\
    bal (vs_accounts s) who < required.
Proof.
  intros H; inversion H; subst; clear H; cbn [after_signed vs_accounts revert_data];
    (split; [reflexivity|]); do 2 eexists; (split; [reflexivity|]); auto.
  match goal with H : withdraw_short _ _ _ _ _ _ _ |- _ => apply H end.
Qed.

(** Owner, signer and staker share. *)
Lemma step_fields E s t s' r a :
  lstep E s t s' r ->
  let old := acct (vs_accounts s) a in let new := acct (vs_accounts s') a in
  match t with
  | TxCreateProver c =>
      if cp_prover (oc_action c) =? a
      then new = Account (acc_balance old) (cp_owner (oc_action c)) (cp_owner (oc_action c)) (cp_bips (oc_action c))
      else new = old
  | TxDelegate d =>
      acc_owner new = acc_owner old /\ acc_bips new = acc_bips old /\
      (acc_signer new = acc_signer old \/
       exists body, signed_by E encode_delegation (json_delegation E) d body (acc_owner old) /\
         as_address (db_prover body) = Some a /\
         as_address (db_delegate body) = Some (acc_signer new) /\ exists o, r = ResOk o)
  | _ => acc_owner new = acc_owner old /\ acc_bips new = acc_bips old /\ acc_signer new = acc_signer old
  end.
Proof.
  intros H old new; subst old new.
  destruct H; cbn [after_onchain after_signed vs_accounts];
    try (match goal with H : moves _ _ _ |- _ => rewrite (moves_fields _ _ _ a H); auto end; fail);
    auto.
  - subst act. rewrite acct_insert. destruct (N.eqb_spec (cp_prover (oc_action c)) a); subst; reflexivity.
  - match goal with H : delegate_ok _ _ _ _ _ _ _ _ |- _ => destruct H as [? ? ? ? ? ? ? (pa & Hpa & Ho)] end.
    rewrite acct_insert.
    match goal with H : moves _ _ _ |- _ => pose proof (moves_fields _ _ _ a H) as Hf end.
    destruct (N.eqb_spec prover a); subst; rewrite Hf; cbn [set_signer set_balance acc_owner acc_bips acc_signer];
      [|auto].
    split; [reflexivity|]. split; [reflexivity|]. right. exists body.
    unfold acct. rewrite Hpa. cbn [from_option id]. split; [assumption|]. eauto.
Qed.

Lemma step_receipt E s t s' o :
  lstep E s t s' (ResOk o) -> due_receipt E t = match o with Some r => [r] | None => [] end.
Proof.
  intros H; inversion H; subst; clear H; cbn [due_receipt]; try reflexivity.
  match goal with H : withdraw_ok _ _ _ _ _ _ _ _ _ |- _ => destruct H as [[Hb _]] end.
  rewrite Hb, wk_account, wk_amount. reflexivity.
Qed.

(** ** Histories *)

Lemma happens_other E s ev s' :
  happens E s ev s' -> (forall t r, ev <> EvTx t r) -> contents s' = contents s.
Proof.
  intros H Hn. destruct H; try reflexivity.
  - exfalso. eapply Hn. reflexivity.
  - unfold merkle_proof. destruct (_ && _); [destruct s; reflexivity|].
    destruct (proof_path _ _ _ _ _ _ _). reflexivity.
  - unfold merkle_proof. destruct (_ && _); [destruct s; reflexivity|].
    destruct (proof_path _ _ _ _ _ _ _). reflexivity.
Qed.

(** A history seen through the contents: other events disappear. *)
Inductive map_history (E : env) : ledger -> list (tx * exec_result) -> ledger -> Prop :=
| mh_nil s : map_history E s [] s
| mh_cons s t r s1 l s' :
    execute_map E t s = (s1, r) -> map_history E s1 l s' -> map_history E s ((t, r) :: l) s'.

Lemma history_contents E s evs s' :
  history E s evs s' -> map_history E (contents s) (txs_of evs) (contents s').
Proof.
  induction 1 as [s|s ev s1 evs s' Hh _ IH]; [constructor|].
  destruct ev as [t r|k|k|k|k|]; cbn [txs_of];
    try (apply happens_other in Hh; [rewrite <- Hh; exact IH|congruence]).
  inversion Hh; subst. econstructor; [|exact IH]. now apply execute_contents.
Qed.

Lemma map_history_steps E s l s' (P : ledger -> list (tx * exec_result) -> ledger -> Prop) :
  (forall s, P s [] s) ->
  (forall s t r s1 l s', lstep E s t s1 r -> P s1 l s' -> P s ((t, r) :: l) s') ->
  map_history E s l s' -> Forall (fun tr => ~ is_panic tr.2) l -> P s l s'.
Proof.
  intros Hn Hc. induction 1 as [s|s t r s1 l s' Hx _ IH]; intros Hf; [apply Hn|].
  inversion Hf; subst. eapply Hc; [eapply execute_map_sound; eauto|auto].
Qed.

Lemma execute_map_run E t s s' r :
  execute_map E t s = (s', r) ->
  (is_panic r /\ s' = (run_map (execute_inner E t) s).1) \/
  (~ is_panic r /\ s' = bump_tx_id (run_map (execute_inner E t) s).1).
Proof.
  unfold execute_map, execute, run_map.
  destruct (run acc_maps tx_maps (execute_inner E t) s) as [s1 [[o|v]|e]]; intros H;
    apply pair_equal_spec in H as [<- <-]; cbn; auto.
Qed.

Lemma execute_map_tame E t s s' r :
  execute_map E t s = (s', r) ->
  vs_domain s' = vs_domain s /\
  (is_panic r -> vs_tx_id s' = vs_tx_id s) /\
  (~ is_panic r -> vs_tx_id s' = next_u64 (vs_tx_id s)) /\
  (forall i, vs_transactions s !! i = Some true -> vs_transactions s' !! i = Some true) /\
  (forall a, is_Some (vs_accounts s !! a) -> is_Some (vs_accounts s' !! a)) /\
  (bounded (vs_accounts s) -> bounded (vs_accounts s')).
Proof.
  intros H. apply execute_map_run in H.
  assert (H1 := run_tame false (execute_inner E t) s (tame_execute _ _ _) ltac:(congruence)).
  assert (H2 : bounded (vs_accounts s) -> tame_after true s (run_map (execute_inner E t) s).1)
    by (intros Hb; apply run_tame; [apply tame_execute|auto]).
  destruct H1.
  destruct H as [[Hp ->]|[Hp ->]]; cbn [bump_tx_id vs_domain vs_tx_id vs_transactions vs_accounts];
    change u64_succ with next_u64; repeat split; auto; try tauto; try congruence; intros Hb; apply (H2 Hb); auto.
Qed.

(** ** Dependence on the processed flags *)

Lemma lstep_other_flags E s t s' r T :
  lstep E s t s' r ->
  (forall who bs, consumes E t who bs ->
     unused (vs_transactions s) (message_id E who bs) -> unused T (message_id E who bs)) ->
  exists l, lstep E (with_transactions T s) t l r /\ vs_accounts l = vs_accounts s'.
Proof.
  intros H Hu. destruct s as [dm ti oi ob ol A T0]. unfold with_transactions.
  destruct H;
    repeat match goal with
    | H : delegate_ok _ _ _ _ _ _ _ _ |- _ => destruct H
    | H : transfer_ok _ _ _ _ _ _ _ _ _ |- _ => destruct H
    | H : withdraw_ok _ _ _ _ _ _ _ _ _ |- _ => destruct H
    | H : clear_authorised _ _ _ _ _ _ _ _ _ _ _ |- _ => destruct H
    end;
    cbn [vs_domain vs_tx_id vs_onchain_tx_id vs_onchain_block vs_onchain_log_index vs_accounts
    vs_transactions after_onchain after_signed] in *.
  - eexists. split; [eapply step_deposit|]; eauto.
  - eexists. split; [eapply step_create_prover|]; eauto.
  - eexists. split; [eapply step_delegate_revert; [constructor|]|]; eauto.
    apply Hu; [econstructor|]; eauto.
  - eexists. split; [eapply step_delegate; [constructor| | |]|]; eauto.
    apply Hu; [econstructor|]; eauto.
  - eexists. split; [eapply step_transfer_revert; [constructor|]|]; eauto.
    apply Hu; [econstructor|]; eauto.
  - eexists. split; [eapply step_transfer; [constructor| |]|]; eauto.
    apply Hu; [econstructor|]; eauto.
  - eexists. split; [eapply step_withdraw_revert; [constructor|]|]; eauto.
    apply Hu; [econstructor|]; eauto.
  - eexists. split; [eapply step_withdraw; [constructor| |]|]; eauto.
    apply Hu; [econstructor|]; eauto.
  - eexists. split; [eapply step_punish_revert; [econstructor| |]|]; eauto.
    rewrite ca_id in *. apply Hu; [econstructor|]; eauto.
  - eexists. split; [eapply step_punish; [econstructor| | | |]|]; eauto.
    rewrite ca_id in *. apply Hu; [econstructor|]; eauto.
  - eexists. split; [eapply step_clear_revert; [econstructor| | |]|]; eauto.
    rewrite ca_id in *. apply Hu; [econstructor|]; eauto.
  - eexists. split; [eapply step_clear; [econstructor| | | | | | |]|]; eauto.
    rewrite ca_id in *. apply Hu; [econstructor|]; eauto.
Qed.

(** ** Dependence on the settlement *)

Lemma lstep_other_settlement E s c s' r settle auct sm2 settle2 :
  lstep E s (TxClear c) s' r ->
  signed_by E encode_settle (json_settle E) (cl_settle c) settle auct ->
  signed_by E encode_settle (json_settle E) sm2 settle2 auct ->
  sb_request_id settle2 = sb_request_id settle ->
  sb_domain settle2 = sb_domain settle ->
  sb_variant settle2 = sb_variant settle ->
  lstep E s
    (TxClear (ClearTx (cl_request c) (cl_bid c) sm2 (cl_execute c) (cl_fulfill c) (cl_verify c))) s' r.
Proof.
  intros H Hs Hs2 Hi Hd Hv.
  assert (Hca : forall x settle0 bidder auctioneer executor pa,
    clear_authorised E (vs_domain s) (vs_accounts s) (vs_transactions s) c x settle0 bidder auctioneer
      executor pa ->
    clear_authorised E (vs_domain s) (vs_accounts s) (vs_transactions s)
      (ClearTx (cl_request c) (cl_bid c) sm2 (cl_execute c) (cl_fulfill c) (cl_verify c))
      x settle2 bidder auctioneer executor pa).
  { intros x settle0 bidder auctioneer executor pa Hc. destruct Hc.
    destruct (signed_by_fun _ _ _ _ _ _ _ _ Hs ca_settle) as [-> ->].
    econstructor; cbn [cl_request cl_bid cl_settle cl_execute]; eauto; congruence. }
  assert (Hcf : forall x f body signer pvh,
    clear_fulfilled E (vs_domain s) c x f body signer pvh ->
    clear_fulfilled E (vs_domain s)
      (ClearTx (cl_request c) (cl_bid c) sm2 (cl_execute c) (cl_fulfill c) (cl_verify c))
      x f body signer pvh) by (intros x f body signer pvh []; constructor; assumption).
  inversion H; subst;
    [eapply step_punish_revert|eapply step_punish|eapply step_clear_revert|eapply step_clear]; eauto.
Qed.

(** ** The fee split *)

Lemma fee_parts_le a p q : p + q <= 10000 -> a * p / 10000 + a * q / 10000 <= a.
Proof.
  intros H.
  assert (Hd : forall x, 10000 * (x / 10000) <= x) by (intros x; apply N.mul_div_le; lia).
  pose proof (Hd (a * p)). pose proof (Hd (a * q)).
  assert (a * p + a * q <= a * 10000) by (rewrite <- N.mul_add_distr_l; now apply N.mul_le_mono_l).
  lia.
Qed.

Lemma fee_inv_full a p st r :
  fee a p st = Ok r <->
  (p <= 10000 /\ st <= 10000 /\ a * p < two256 /\ a * N.min st (10000 - p) < two256 /\
   r = (a * p / 10000, a * N.min st (10000 - p) / 10000,
        a - a * p / 10000 - a * N.min st (10000 - p) / 10000)).
Proof.
  assert (H256 : 40000 < two256) by (unfold two256; lia).
  unfold fee. cbn zeta.
  destruct (N.ltb_spec 10000 p) as [Hp|Hp]; [split; [discriminate|lia]|].
  destruct (N.ltb_spec 10000 st) as [Hs|Hs]; [split; [discriminate|lia]|].
  unfold u256_add at 1. rewrite (proj2 (N.ltb_lt _ _)) by lia. cbn [rbind].
  assert (Hadj : (if 10000 <? p + st then try x := u256_sub (p + st) 10000 in u256_sub st x else Ok st)
                   = Ok (N.min st (10000 - p))).
  { destruct (N.ltb_spec 10000 (p + st)).
    - unfold u256_sub at 1. rewrite (proj2 (N.leb_le _ _)) by lia. cbn [rbind].
      unfold u256_sub. rewrite (proj2 (N.leb_le _ _)) by lia. f_equal. lia.
    - f_equal. lia. }
  rewrite Hadj. cbn [rbind]. clear Hadj.
  assert (Hq : p + N.min st (10000 - p) <= 10000) by lia.
  generalize dependent (N.min st (10000 - p)). intros q Hq.
  unfold u256_add. rewrite (proj2 (N.ltb_lt _ _)) by lia. cbn [rbind].
  rewrite (proj2 (N.ltb_ge _ _)) by lia.
  pose proof (fee_parts_le a p q Hq) as Hle.
  unfold u256_mul, u256_div, u256_sub. change (10000 =? 0) with false.
  destruct (N.ltb_spec (a * p) two256); cbn [rbind]; [|split; [discriminate|lia]].
  destruct (N.ltb_spec (a * q) two256); cbn [rbind]; [|split; [discriminate|lia]].
  rewrite (proj2 (N.leb_le _ _)) by lia. cbn [rbind].
  rewrite (proj2 (N.leb_le _ _)) by lia. cbn [rbind].
  split.
  - intros [= <-]. auto.
  - intros (_ & _ & _ & _ & ->). reflexivity.
Qed.
