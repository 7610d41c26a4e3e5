(** Running the ledger on plain maps: the reference semantics, and inversion lemmas. *)
From Verif Require Export Sparse StepSpec.
Open Scope N_scope.

Definition acc_maps : storage account (gmap N account) := map_storage account_default address_index.
Definition tx_maps : storage bool (gmap N bool) := map_storage false request_index.

Definition run_map {X} (p : prog X) (s : ledger) : ledger * result X panic := run acc_maps tx_maps p s.
Definition execute_map (E : env) (t : tx) (s : ledger) : ledger * exec_result :=
  execute acc_maps tx_maps E t s.

(** ** Sequencing *)

(** [injection] would evaluate the maps inside the states; this does not. *)
Lemma pair_ok_inj {S X : Type} (a b : S) (x y : X) :
  (a, @Ok X panic x) = (b, Ok y) -> a = b /\ x = y.
Proof. intros H. split; congruence. Qed.

Lemma run_bind {A R} (SA : storage account A) (SR : storage bool R) {X Y} (p : prog X)
    (f : X -> prog Y) s :
  run SA SR (bind p f) s =
  match run SA SR p s with
  | (s', Ok x) => run SA SR (f x) s'
  | (s', Err e) => (s', Err e)
  end.
Proof.
  revert s; induction p; intros s; cbn [bind run]; auto.
  - destruct (sto_entry SA k (vs_accounts s)) as [[v a]|]; auto.
  - destruct (sto_get SA k (vs_accounts s)) as [[v a]|]; auto.
  - destruct (sto_get_mut SA k (vs_accounts s)) as [[v a]|]; auto.
  - destruct (sto_entry SR k (vs_transactions s)) as [[v a]|]; auto.
  - destruct (sto_insert SR k b (vs_transactions s)) as [a|]; auto.
Qed.

Section inv.
  Context {A R : Type} (SA : storage account A) (SR : storage bool R).

  Lemma run_bind_ok {X Y} (p : prog X) (f : X -> prog Y) s s' y :
    run SA SR (bind p f) s = (s', Ok y) ->
    exists s1 x, run SA SR p s = (s1, Ok x) /\ run SA SR (f x) s1 = (s', Ok y).
  Proof.
    rewrite run_bind. destruct (run SA SR p s) as [s1 [x|e]]; intros H; [eauto|discriminate].
  Qed.

  Lemma run_ok_or {X} (o : option X) e s s' x :
    run SA SR (ok_or o e) s = (s', Ok x) -> s' = s /\ o = Some x.
  Proof. destruct o; cbn; intros H; inversion H; auto. Qed.

  Lemma run_lift {X} (r : result X panic) s s' x :
    run SA SR (lift r) s = (s', Ok x) -> s' = s /\ r = Ok x.
  Proof. destruct r; cbn; intros H; inversion H; auto. Qed.

  Lemma run_ensure b e s s' x :
    run SA SR (ensure b e) s = (s', Ok x) -> s' = s /\ b = true.
  Proof. destruct b; cbn; intros H; inversion H; auto. Qed.

  Lemma run_parse_address bs s s' x :
    run SA SR (parse_address bs) s = (s', Ok x) -> s' = s /\ as_address bs = Some x.
  Proof. apply run_ok_or. Qed.

  Lemma run_parse_format z s s' x :
    run SA SR (parse_format z) s = (s', Ok x) -> s' = s /\ format_of_tag z = Some x.
  Proof. apply run_ok_or. Qed.

  Lemma run_parse_amount E bs e s s' x :
    run SA SR (parse_amount E bs e) s = (s', Ok x) -> s' = s /\ parse_u256 E bs = Some x.
  Proof. apply run_ok_or. Qed.

  Lemma variant_of_tag_inv z v : variant_of_tag z = Some v -> z = variant_tag v.
  Proof.
    unfold variant_of_tag. intros H.
    destruct z as [|[[[p|p|]|[p|p|]|]|[[p|p|]|[p|p|]|]|]|p]; try discriminate;
      injection H as <-; reflexivity.
  Qed.

  Lemma variant_eqb_eq a b : variant_eqb a b = true -> a = b.
  Proof. destruct a, b; cbn; congruence. Qed.

  Lemma run_check_variant z v s s' x :
    run SA SR (check_variant z v) s = (s', Ok x) -> s' = s /\ z = variant_tag v.
  Proof.
    unfold check_variant. intros H.
    apply run_bind_ok in H as (s1 & v' & H1 & H2).
    apply run_ok_or in H1 as [-> H1]. apply run_ensure in H2 as [-> H2].
    apply variant_of_tag_inv in H1. apply variant_eqb_eq in H2. subst. auto.
  Qed.

  Lemma run_check_domain d e s s' x :
    run SA SR (check_domain d e) s = (s', Ok x) -> s' = s /\ as_word d = Some (vs_domain s).
  Proof.
    unfold check_domain. intros H.
    apply run_bind_ok in H as (s1 & a & H1 & H2).
    apply run_ok_or in H1 as [-> H1].
    cbn in H2. apply run_ensure in H2 as [-> H2].
    apply N.eqb_eq in H2. subst. auto.
  Qed.
End inv.

Lemma run_acc_get k s s' o :
  run_map (acc_get k) s = (s', Ok o) -> s' = s /\ o = vs_accounts s !! k.
Proof. cbn. intros H. apply pair_ok_inj in H as [<- <-]. destruct s; auto. Qed.

Lemma run_acc_get_mut k s s' o :
  run_map (acc_get_mut k) s = (s', Ok o) -> s' = s /\ o = vs_accounts s !! k.
Proof. cbn. intros H. apply pair_ok_inj in H as [<- <-]. destruct s; auto. Qed.

Lemma run_balance_of k s s' b :
  run_map (balance_of k) s = (s', Ok b) -> s' = s /\ b = bal (vs_accounts s) k.
Proof.
  cbn. intros H. apply pair_ok_inj in H as [<- <-]. unfold bal, acct, address_index.
  destruct s; cbn. destruct (_ !! k); auto.
Qed.

Lemma run_credit k x s s' u :
  run_map (credit k x) s = (s', Ok u) ->
  s' = with_accounts (m_credit k x (vs_accounts s)) s /\ bal (vs_accounts s) k + x < two256.
Proof.
  unfold credit, run_map. intros H.
  apply run_bind_ok in H as (s1 & a & H1 & H2).
  cbn in H1. apply pair_ok_inj in H1 as [<- <-].
  apply run_bind_ok in H2 as (s2 & b & H2 & H3).
  apply run_lift in H2 as [-> H2]. unfold u256_add in H2.
  destruct (_ <? _) eqn:Hlt; [|discriminate]. injection H2 as <-.
  cbn in H3. apply pair_ok_inj in H3 as [<- _].
  apply N.ltb_lt in Hlt. split; [|exact Hlt].
  unfold m_credit, with_accounts; cbn. f_equal. apply insert_insert.
Qed.

Lemma run_debit k x s s' u :
  run_map (debit k x) s = (s', Ok u) ->
  s' = with_accounts (m_debit k x (vs_accounts s)) s /\ x <= bal (vs_accounts s) k.
Proof.
  unfold debit, run_map. intros H.
  apply run_bind_ok in H as (s1 & a & H1 & H2).
  cbn in H1. apply pair_ok_inj in H1 as [<- <-].
  apply run_bind_ok in H2 as (s2 & b & H2 & H3).
  apply run_lift in H2 as [-> H2]. unfold u256_sub in H2.
  destruct (_ <=? _) eqn:Hlt; [|discriminate]. injection H2 as <-.
  cbn in H3. apply pair_ok_inj in H3 as [<- _].
  apply N.leb_le in Hlt. split; [|exact Hlt].
  unfold m_debit, with_accounts; cbn. f_equal. apply insert_insert.
Qed.

Lemma run_check_fresh id s s' u :
  run_map (check_fresh id) s = (s', Ok u) ->
  s' = with_transactions (<[request_index id := false]> (vs_transactions s)) s /\
  unused (vs_transactions s) id.
Proof.
  unfold check_fresh, run_map. intros H.
  apply run_bind_ok in H as (s1 & b & H1 & H2).
  cbn in H1. apply pair_ok_inj in H1 as [<- <-].
  apply run_ensure in H2 as [-> H2]. unfold unused.
  destruct (vs_transactions s !! request_index id) as [[]|] eqn:Hk; cbn in *; try discriminate;
    split; congruence || reflexivity.
Qed.

Lemma run_tx_insert id b s s' u :
  run_map (tx_insert id b) s = (s', Ok u) ->
  s' = with_transactions (<[request_index id := b]> (vs_transactions s)) s.
Proof. cbn. intros H. apply pair_ok_inj in H as [<- _]. reflexivity. Qed.

Lemma run_check_request_id id o s s' u :
  run_map (check_request_id id o) s = (s', Ok u) -> s' = s /\ o = be_bytes 32 id.
Proof.
  intros H. apply run_ensure in H as [-> H]. apply bool_decide_eq_true in H. auto.
Qed.

Lemma run_validate_onchain blk log l1 s s' u :
  run_map (validate_onchain_tx blk log l1) s = (s', Ok u) ->
  s' = s /\ l1 = vs_onchain_tx_id s /\
  (vs_onchain_block s < blk \/ (vs_onchain_block s = blk /\ vs_onchain_log_index s < log)).
Proof.
  unfold validate_onchain_tx, run_map. intros H.
  apply run_bind_ok in H as (s1 & [[i b] l] & H1 & H2). cbn in H1. apply pair_ok_inj in H1 as [<- H1]. injection H1 as <- <- <-.
  apply run_bind_ok in H2 as (s1 & [] & H1 & H2). apply run_ensure in H1 as [-> H1].
  apply run_bind_ok in H2 as (s1 & [] & H3 & H2). apply run_ensure in H3 as [-> H3].
  apply run_ensure in H2 as [-> H2].
  apply N.eqb_eq in H1. apply negb_true_iff, N.ltb_ge in H3. apply negb_true_iff in H2.
  apply andb_false_iff in H2.
  split; [reflexivity|]. split; [exact H1|].
  destruct H2 as [H2|H2]; [apply N.eqb_neq in H2|apply N.leb_gt in H2]; lia.
Qed.

Lemma run_advance_cursor blk log s s' u :
  run_map (advance_cursor blk log) s = (s', Ok u) ->
  s' = with_cursor (next_u64 (vs_onchain_tx_id s)) blk log s.
Proof. cbn. intros H. apply pair_ok_inj in H as [<- _]. reflexivity. Qed.

Lemma map_bind_ok {X Y} (p : prog X) (f : X -> prog Y) s s' y :
  run_map (bind p f) s = (s', Ok y) ->
  exists s1 x, run_map p s = (s1, Ok x) /\ run_map (f x) s1 = (s', Ok y).
Proof. apply run_bind_ok. Qed.

(** Take one step of an inverted successful run. *)
Ltac run_step :=
  match goal with
  | H : run_map (bind _ _) _ = (_, Ok _) |- _ =>
      let s := fresh "s" in let x := fresh "x" in let H1 := fresh "Hp" in let H2 := fresh "Hk" in
      apply map_bind_ok in H as (s & x & H1 & H2)
  | H : run_map (ok_or _ _) _ = (_, Ok _) |- _ => apply run_ok_or in H as [-> H]
  | H : run_map (lift _) _ = (_, Ok _) |- _ => apply run_lift in H as [-> H]
  | H : run_map (ensure _ _) _ = (_, Ok _) |- _ => apply run_ensure in H as [-> H]
  | H : run_map (parse_address _) _ = (_, Ok _) |- _ => apply run_parse_address in H as [-> H]
  | H : run_map (parse_format _) _ = (_, Ok _) |- _ => apply run_parse_format in H as [-> H]
  | H : run_map (parse_amount _ _ _) _ = (_, Ok _) |- _ => apply run_parse_amount in H as [-> H]
  | H : run_map (check_variant _ _) _ = (_, Ok _) |- _ => apply run_check_variant in H as [-> H]
  | H : run_map (check_domain _ _) _ = (_, Ok _) |- _ => apply run_check_domain in H as [-> H]
  | H : run_map (acc_get _) _ = (_, Ok _) |- _ => apply run_acc_get in H as [-> ->]
  | H : run_map (acc_get_mut _) _ = (_, Ok _) |- _ => apply run_acc_get_mut in H as [-> ->]
  | H : run_map (balance_of _) _ = (_, Ok _) |- _ => apply run_balance_of in H as [-> ->]
  | H : run_map (credit _ _) _ = (_, Ok _) |- _ => apply run_credit in H as [-> H]
  | H : run_map (debit _ _) _ = (_, Ok _) |- _ => apply run_debit in H as [-> H]
  | H : run_map (check_fresh _) _ = (_, Ok _) |- _ => apply run_check_fresh in H as [-> H]
  | H : run_map (tx_insert _ _) _ = (_, Ok _) |- _ => apply run_tx_insert in H as ->
  | H : run_map (check_request_id _ _) _ = (_, Ok _) |- _ => apply run_check_request_id in H as [-> H]
  | H : run_map (validate_onchain_tx _ _ _) _ = (_, Ok _) |- _ =>
      apply run_validate_onchain in H as (-> & ? & H)
  | H : run_map (advance_cursor _ _) _ = (_, Ok _) |- _ => apply run_advance_cursor in H as ->
  | H : run_map (Ret _) _ = (_, Ok _) |- _ => apply pair_ok_inj in H as [<- <-]
  | H : run_map (Fail _) _ = (_, Ok _) |- _ => discriminate H
  | H : _ * _ |- _ => destruct H
  | H : unit |- _ => destruct H
  end.
