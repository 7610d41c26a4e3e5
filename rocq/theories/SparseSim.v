(** Running the ledger on sparse storage compared with running it on full storage. *)
From Verif Require Export Sim StfSpec MerkleUpdate Bytes.
From Coq Require Import ZifyBool ZifyN ZifyNat.
Open Scope N_scope.
Local Opaque request_index.

(** ** Discipline of the ledger code *)

(** A program writes an account only through a reference it obtained before, and never itself reports a
    missing key. *)
Fixpoint disciplined {X} (O : list N) (p : prog X) : Prop :=
  match p with
  | Ret _ => True
  | Fail e => e <> KeyNotAllowed
  | AccEntry k c => forall a, disciplined (k :: O) (c a)
  | AccGet k c => forall o, disciplined O (c o)
  | AccGetMut k c => forall o, disciplined (k :: O) (c o)
  | AccPut k a c => k ∈ O /\ disciplined O c
  | TxEntry k c => forall b, disciplined O (c b)
  | TxInsert k b c => disciplined O c
  | GetDomain c => forall d, disciplined O (c d)
  | GetCursor c => forall i b l, disciplined O (c i b l)
  | SetCursor i b l c => disciplined O c
  end.

Lemma disciplined_mono {X} (p : prog X) : forall O O',
  (forall k, k ∈ O -> k ∈ O') -> disciplined O p -> disciplined O' p.
Proof.
  induction p as [x|e|k c IH|k c IH|k c IH|k a c IH|k c IH|k b c IH|c IH|c IH|i b l c IH];
    intros O O' HO Hp; cbn [disciplined] in *; auto.
  - intros a. eapply IH; [|apply Hp]. intros q Hq. apply elem_of_cons in Hq as [->|Hq]; [left|right; auto].
  - intros o. eapply IH; [|apply Hp]. auto.
  - intros a. eapply IH; [|apply Hp]. intros q Hq. apply elem_of_cons in Hq as [->|Hq]; [left|right; auto].
  - destruct Hp as [H1 H2]. split; [auto|]. eapply IH; eauto.
  - intros b. eapply IH; [|apply Hp]. auto.
  - eapply IH; eauto.
  - intros b. eapply IH; [|apply Hp]. auto.
  - intros i b l. eapply IH; [|apply Hp]. auto.
  - eapply IH; eauto.
Qed.

Lemma disciplined_bind {X Y} (p : prog X) (f : X -> prog Y) : forall O,
  disciplined O p -> (forall x, disciplined O (f x)) -> disciplined O (bind p f).
Proof.
  induction p as [x|e|k c IH|k c IH|k c IH|k a c IH|k c IH|k b c IH|c IH|c IH|i b l c IH];
    intros O Hp Hf; cbn [disciplined bind] in *; auto.
  - intros a. apply IH; [apply Hp|]. intros x. eapply disciplined_mono; [|apply Hf]. intros q Hq. now right.
  - intros a. apply IH; [apply Hp|]. intros x. eapply disciplined_mono; [|apply Hf]. intros q Hq. now right.
  - destruct Hp. auto.
Qed.

Section discipline.
  Context (O : list N).

Lemma disc_ok_or {X} (o : option X) e : e <> KeyNotAllowed -> disciplined O (ok_or o e).
Proof. now destruct o. Qed.
Lemma disc_lift {X} (r : result X panic) :
  (forall e, r = Err e -> e <> KeyNotAllowed) -> disciplined O (lift r).
Proof. destruct r; cbn; auto. Qed.
Lemma disc_ensure b e : e <> KeyNotAllowed -> disciplined O (ensure b e).
Proof. now destruct b. Qed.
Lemma disc_credit k x : disciplined O (credit k x).
Proof.
  cbn. intros a. unfold u256_add. destruct (_ <? _); cbn; [split; [left|exact I]|discriminate].
Qed.
Lemma disc_debit k x : disciplined O (debit k x).
Proof.
  cbn. intros a. unfold u256_sub. destruct (_ <=? _); cbn; [split; [left|exact I]|discriminate].
Qed.
Lemma disc_balance_of k : disciplined O (balance_of k).
Proof. cbn. intros. destruct o; exact I. Qed.
Lemma disc_check_variant z v : disciplined O (check_variant z v).
Proof. apply disciplined_bind; intros; [now apply disc_ok_or|now apply disc_ensure]. Qed.
Lemma disc_check_domain z v : v <> KeyNotAllowed -> disciplined O (check_domain z v).
Proof. intros. apply disciplined_bind; intros; [now apply disc_ok_or|]. cbn. intros. now apply disc_ensure. Qed.
Lemma disc_check_fresh z : disciplined O (check_fresh z).
Proof. cbn. intros. now apply disc_ensure. Qed.
Lemma disc_validate a b c : disciplined O (validate_onchain_tx a b c).
Proof. cbn. intros. repeat (apply disciplined_bind; intros); now apply disc_ensure. Qed.
Lemma disc_advance b l : disciplined O (advance_cursor b l).
Proof. cbn. auto. Qed.
End discipline.

Lemma err_u256_add a b e : u256_add a b = Err e -> e <> KeyNotAllowed.
Proof. unfold u256_add. destruct (_ <? _); congruence. Qed.
Lemma err_u256_mul a b e : u256_mul a b = Err e -> e <> KeyNotAllowed.
Proof. unfold u256_mul. destruct (_ <? _); congruence. Qed.
Lemma err_u256_sub a b e : u256_sub a b = Err e -> e <> KeyNotAllowed.
Proof. unfold u256_sub. destruct (_ <=? _); congruence. Qed.
Lemma err_eth_sign_verify E m s e : eth_sign_verify E m s = Err e -> e <> KeyNotAllowed.
Proof. unfold eth_sign_verify. repeat case_match; congruence. Qed.
Lemma err_verify E m j s f e : verify_signed_message E m j s f = Err e -> e <> KeyNotAllowed.
Proof. unfold verify_signed_message, eth_sign_verify. repeat case_match; congruence. Qed.
Lemma err_u256_div a b e : u256_div a b = Err e -> e <> KeyNotAllowed.
Proof. unfold u256_div. destruct (_ =? _); congruence. Qed.
Lemma err_rbind {X Y} (r : result X panic) (f : X -> result Y panic) :
  (forall e, r = Err e -> e <> KeyNotAllowed) ->
  (forall x e, f x = Err e -> e <> KeyNotAllowed) ->
  forall e, rbind r f = Err e -> e <> KeyNotAllowed.
Proof. intros H1 H2. destruct r as [x|e0]; cbn [rbind]; [apply H2|]. intros e H. apply H1. congruence. Qed.
Lemma err_if {X} (b : bool) (r1 r2 : result X panic) :
  (forall e, r1 = Err e -> e <> KeyNotAllowed) ->
  (forall e, r2 = Err e -> e <> KeyNotAllowed) ->
  forall e, (if b then r1 else r2) = Err e -> e <> KeyNotAllowed.
Proof. destruct b; auto. Qed.
Lemma err_fee a b c : forall e, fee a b c = Err e -> e <> KeyNotAllowed.
Proof.
  unfold fee.
  repeat first
    [ apply err_rbind; [|intros ?] | apply err_if | exact (err_u256_add _ _) | exact (err_u256_sub _ _)
    | exact (err_u256_mul _ _) | exact (err_u256_div _ _) ]; intros; congruence.
Qed.

Ltac not_key := first
  [ discriminate
  | intros ? HE; first [apply err_u256_add in HE|apply err_u256_mul in HE|apply err_u256_sub in HE
                       |apply err_eth_sign_verify in HE|apply err_verify in HE|apply err_fee in HE]; exact HE ].

Ltac disc :=
  match goal with
  | |- disciplined _ (bind (acc_entry _) _) => cbn [bind acc_entry disciplined]; intros
  | |- disciplined _ (bind (acc_get_mut _) _) => cbn [bind acc_get_mut disciplined]; intros
  | |- disciplined _ (bind (ok_or ?o _) _) =>
      is_var o; destruct o; cbn [bind ok_or disciplined]; [|discriminate]
  | |- disciplined _ (bind (acc_put _ _) _) => cbn [bind acc_put disciplined]; split; [left|]
  | |- disciplined _ (bind _ _) => apply disciplined_bind; intros
  | |- disciplined _ (ok_or _ _) => apply disc_ok_or; not_key
  | |- disciplined _ (lift _) => apply disc_lift; not_key
  | |- disciplined _ (ensure _ _) => apply disc_ensure; not_key
  | |- disciplined _ (check_request_id _ _) => apply disc_ensure; not_key
  | |- disciplined _ (parse_address _) => apply disc_ok_or; not_key
  | |- disciplined _ (parse_format _) => apply disc_ok_or; not_key
  | |- disciplined _ (parse_amount _ _ _) => apply disc_ok_or; not_key
  | |- disciplined _ (credit _ _) => apply disc_credit
  | |- disciplined _ (debit _ _) => apply disc_debit
  | |- disciplined _ (balance_of _) => apply disc_balance_of
  | |- disciplined _ (check_variant _ _) => apply disc_check_variant
  | |- disciplined _ (check_domain _ _) => apply disc_check_domain; not_key
  | |- disciplined _ (check_fresh _) => apply disc_check_fresh
  | |- disciplined _ (acc_get _) => cbn; intros
  | |- disciplined _ (tx_insert _ _) => exact I
  | |- disciplined _ (validate_onchain_tx _ _ _) => apply disc_validate
  | |- disciplined _ (advance_cursor _ _) => apply disc_advance
  | |- True => exact I
  | |- disciplined _ (Ret _) => exact I
  | |- disciplined _ (Fail _) => cbn; not_key
  | |- disciplined _ (if ?b then _ else _) => destruct b
  | |- disciplined _ (match ?b with _ => _ end) => destruct b
  end; cbv beta iota zeta.

Lemma disciplined_execute E t : disciplined [] (execute_inner E t).
Proof.
  destruct t; cbn [execute_inner].
  - unfold exec_deposit. repeat disc.
  - unfold exec_create_prover. repeat disc.
  - unfold exec_delegate. repeat disc.
  - unfold exec_transfer. repeat disc.
  - unfold exec_clear, clear_checks, clear_punish, clear_fulfillment, clear_pay. repeat disc.
  - unfold exec_withdraw. repeat disc.
Qed.

(** ** Simulation *)

(** Agreement with a ledger on plain maps. *)
Record agree_map (sp : sparse_state) (l : ledger) : Prop := {
  am_domain : vs_domain sp = vs_domain l;
  am_tx_id : vs_tx_id sp = vs_tx_id l;
  am_onchain : vs_onchain_tx_id sp = vs_onchain_tx_id l;
  am_block : vs_onchain_block sp = vs_onchain_block l;
  am_log : vs_onchain_log_index sp = vs_onchain_log_index l;
  am_accounts : forall i, i ∈ known_accounts sp -> sp_inner (vs_accounts sp) !! i = vs_accounts l !! i;
  am_requests : forall i, i ∈ known_requests sp ->
    sp_inner (vs_transactions sp) !! i = vs_transactions l !! i
}.

(** What stays fixed. *)
Record framed (sp sp' : sparse_state) (l l' : ledger) : Prop := {
  fr_known_accounts : known_accounts sp' = known_accounts sp;
  fr_known_requests : known_requests sp' = known_requests sp;
  fr_accounts : forall i, i ∉ known_accounts sp -> vs_accounts l' !! i = vs_accounts l !! i;
  fr_requests : forall i, i ∉ known_requests sp -> vs_transactions l' !! i = vs_transactions l !! i;
  fr_grow_accounts : forall i, is_Some (sp_inner (vs_accounts sp) !! i) ->
    is_Some (sp_inner (vs_accounts sp') !! i);
  fr_grow_requests : forall i, is_Some (sp_inner (vs_transactions sp) !! i) ->
    is_Some (sp_inner (vs_transactions sp') !! i)
}.

Lemma framed_refl sp l : framed sp sp l l.
Proof. constructor; auto. Qed.

Lemma framed_trans a b c la lb lc : framed a b la lb -> framed b c lb lc -> framed a c la lc.
Proof.
  intros [] []. constructor.
  - congruence.
  - congruence.
  - intros i Hi. rewrite fr_accounts1 by now rewrite fr_known_accounts0. auto.
  - intros i Hi. rewrite fr_requests1 by now rewrite fr_known_requests0. auto.
  - auto.
  - auto.
Qed.

Lemma agree_write_account (sp : sparse_state) (l : ledger) k a :
  k ∈ known_accounts sp -> agree_map sp l ->
  let sp' := with_accounts (Sparse (<[k := a]> (sp_inner (vs_accounts sp))) (sp_witnessed (vs_accounts sp))) sp in
  let l' := with_accounts (<[k := a]> (vs_accounts l)) l in
  agree_map sp' l' /\ framed sp sp' l l'.
Proof.
  intros Hk Ha. cbn zeta. split.
  - destruct Ha. constructor; cbn; auto. unfold known_accounts; cbn. intros i Hi.
    destruct (decide (k = i)) as [->|Hne]; [now rewrite !lookup_insert|].
    rewrite !lookup_insert_ne by exact Hne. auto.
  - constructor; cbn; auto.
    + intros i Hi. rewrite lookup_insert_ne; [reflexivity|]. intros ->. contradiction.
    + intros i Hi. apply lookup_insert_is_Some'. now right.
Qed.

Lemma agree_write_request (sp : sparse_state) (l : ledger) k b :
  k ∈ known_requests sp -> agree_map sp l ->
  let sp' := with_transactions
    (Sparse (<[k := b]> (sp_inner (vs_transactions sp))) (sp_witnessed (vs_transactions sp))) sp in
  let l' := with_transactions (<[k := b]> (vs_transactions l)) l in
  agree_map sp' l' /\ framed sp sp' l l'.
Proof.
  intros Hk Ha. cbn zeta. split.
  - destruct Ha. constructor; cbn; auto. unfold known_requests; cbn. intros i Hi.
    destruct (decide (k = i)) as [->|Hne]; [now rewrite !lookup_insert|].
    rewrite !lookup_insert_ne by exact Hne. auto.
  - constructor; cbn; auto.
    + intros i Hi. rewrite lookup_insert_ne; [reflexivity|]. intros ->. contradiction.
    + intros i Hi. apply lookup_insert_is_Some'. now right.
Qed.

Definition run_sparse E {X} (p : prog X) (sp : sparse_state) : sparse_state * result X panic :=
  run (sparse_storage (account_tree E)) (sparse_storage (request_tree E)) p sp.

Lemma with_accounts_same {A R} (s : vstate A R) : with_accounts (vs_accounts s) s = s.
Proof. now destruct s. Qed.

Lemma run_sparse_map E {X} (p : prog X) : forall O sp l sp' r,
  disciplined O p -> (forall k, k ∈ O -> k ∈ known_accounts sp) -> agree_map sp l ->
  run_sparse E p sp = (sp', r) -> r <> Err KeyNotAllowed ->
  exists l', run_map p l = (l', r) /\ agree_map sp' l' /\ framed sp sp' l l'.
Proof.
  unfold run_sparse, run_map.
  induction p as [x|e|k c IH|k c IH|k c IH|k a c IH|k c IH|k b c IH|c IH|c IH|i b l0 c IH];
    intros O sp l sp' r Hd HO Ha Hrun Hr; cbn [disciplined] in Hd.
  - cbn [run] in *. apply pair_equal_spec in Hrun as [<- <-]. exists l. split; [reflexivity|].
    split; [exact Ha|apply framed_refl].
  - cbn [run] in *. apply pair_equal_spec in Hrun as [<- <-]. exists l. split; [reflexivity|].
    split; [exact Ha|apply framed_refl].
  - cbn [run sto_entry sparse_storage map_storage account_tree tc_index tc_default] in *.
    unfold address_index, guarded in *. change (tc_index (account_tree E) k) with k in Hrun.
    destruct (bool_decide_reflect (k ∈ sp_witnessed (vs_accounts sp))) as [Hk|Hk];
      [|apply pair_equal_spec in Hrun as [<- <-]; now destruct Hr].
    rewrite (am_accounts _ _ Ha k Hk) in Hrun.
    destruct (agree_write_account sp l k (default account_default (vs_accounts l !! k)) Hk Ha) as [Ha1 Hf1].
    edestruct IH as (l' & H1 & H2 & H3); [apply Hd| |exact Ha1|exact Hrun|exact Hr|].
    + intros q Hq. apply elem_of_cons in Hq as [->|Hq]; [exact Hk|]. now apply HO.
    + exists l'. split; [exact H1|]. split; [exact H2|]. eapply framed_trans; eassumption.
  - cbn [run sto_get sparse_storage map_storage account_tree tc_index] in *.
    unfold address_index, guarded in *. change (tc_index (account_tree E) k) with k in Hrun.
    destruct (bool_decide_reflect (k ∈ sp_witnessed (vs_accounts sp))) as [Hk|Hk];
      [|apply pair_equal_spec in Hrun as [<- <-]; now destruct Hr].
    rewrite (am_accounts _ _ Ha k Hk), with_accounts_same in Hrun.
    assert (Hgoal : exists l', run acc_maps tx_maps (c (vs_accounts l !! k)) l = (l', r) /\
      agree_map sp' l' /\ framed sp sp' l l');
      [|destruct Hgoal as (l' & H1 & H2 & H3); exists l'; split; [|now split];
        change (run acc_maps tx_maps (c (vs_accounts l !! k)) (with_accounts (vs_accounts l) l) = (l', r));
        now rewrite with_accounts_same].
    eapply IH; [apply Hd|exact HO|exact Ha|exact Hrun|exact Hr].
  - cbn [run sto_get_mut sparse_storage map_storage account_tree tc_index] in *.
    unfold address_index, guarded in *. change (tc_index (account_tree E) k) with k in Hrun.
    destruct (bool_decide_reflect (k ∈ sp_witnessed (vs_accounts sp))) as [Hk|Hk];
      [|apply pair_equal_spec in Hrun as [<- <-]; now destruct Hr].
    rewrite (am_accounts _ _ Ha k Hk), with_accounts_same in Hrun.
    assert (Hgoal : exists l', run acc_maps tx_maps (c (vs_accounts l !! k)) l = (l', r) /\
      agree_map sp' l' /\ framed sp sp' l l');
      [|destruct Hgoal as (l' & H1 & H2 & H3); exists l'; split; [|now split];
        change (run acc_maps tx_maps (c (vs_accounts l !! k)) (with_accounts (vs_accounts l) l) = (l', r));
        now rewrite with_accounts_same].
    eapply IH; [apply Hd| |exact Ha|exact Hrun|exact Hr].
    intros q Hq. apply elem_of_cons in Hq as [->|Hq]; [exact Hk|]. now apply HO.
  - destruct Hd as [Hk Hd]. cbn [run sto_put sparse_storage map_storage account_tree tc_index] in *.
    unfold address_index in *. apply HO in Hk.
    destruct (agree_write_account sp l k a Hk Ha) as [Ha1 Hf1].
    edestruct IH as (l' & H1 & H2 & H3); [exact Hd| |exact Ha1|exact Hrun|exact Hr|].
    + exact HO.
    + exists l'. split; [exact H1|]. split; [exact H2|]. eapply framed_trans; eassumption.
  - cbn [run sto_entry sparse_storage map_storage request_tree tc_index tc_default] in *.
    unfold guarded in *. change (tc_index (request_tree E) k) with (request_index k) in Hrun.
    destruct (bool_decide_reflect (request_index k ∈ sp_witnessed (vs_transactions sp))) as [Hk|Hk];
      [|apply pair_equal_spec in Hrun as [<- <-]; now destruct Hr].
    rewrite (am_requests _ _ Ha _ Hk) in Hrun.
    destruct (agree_write_request sp l _ (default false (vs_transactions l !! request_index k)) Hk Ha)
      as [Ha1 Hf1].
    edestruct IH as (l' & H1 & H2 & H3); [apply Hd| |exact Ha1|exact Hrun|exact Hr|].
    + exact HO.
    + exists l'. split; [exact H1|]. split; [exact H2|]. eapply framed_trans; eassumption.
  - cbn [run sto_insert sparse_storage map_storage request_tree tc_index] in *.
    unfold guarded in *. change (tc_index (request_tree E) k) with (request_index k) in Hrun.
    destruct (bool_decide_reflect (request_index k ∈ sp_witnessed (vs_transactions sp))) as [Hk|Hk];
      [|apply pair_equal_spec in Hrun as [<- <-]; now destruct Hr].
    destruct (agree_write_request sp l _ b Hk Ha) as [Ha1 Hf1].
    edestruct IH as (l' & H1 & H2 & H3); [apply Hd| |exact Ha1|exact Hrun|exact Hr|].
    + exact HO.
    + exists l'. split; [exact H1|]. split; [exact H2|]. eapply framed_trans; eassumption.
  - cbn [run] in *. rewrite (am_domain _ _ Ha) in Hrun. eapply IH; eauto.
  - cbn [run] in *. rewrite (am_onchain _ _ Ha), (am_block _ _ Ha), (am_log _ _ Ha) in Hrun.
    eapply IH; eauto.
  - cbn [run] in *.
    edestruct IH as (l' & H1 & H2 & H3); [exact Hd| | |exact Hrun|exact Hr|].
    + exact HO.
    + instantiate (1 := with_cursor i b l0 l). destruct Ha. now constructor.
    + exists l'. split; [exact H1|]. split; [exact H2|]. destruct H3. now constructor.
Qed.

(** ** Key tracking on full storage *)

Definition run_full E {X} (p : prog X) (s : full_state) : full_state * result X panic :=
  run (merkle_storage (account_tree E)) (merkle_storage (request_tree E)) p s.

Lemma run_touched_mono E {X} (p : prog X) : forall s s' r,
  run_full E p s = (s', r) ->
  touched_accounts s ⊆ touched_accounts s' /\ touched_requests s ⊆ touched_requests s'.
Proof.
  unfold run_full.
  induction p as [x|e|k c IH|k c IH|k c IH|k a c IH|k c IH|k b c IH|c IH|c IH|i b l0 c IH];
    intros s s' r Hrun; cbn [run] in Hrun;
    try (apply pair_equal_spec in Hrun as [<- <-]; now split);
    try (now apply IH in Hrun);
    apply IH in Hrun as [H1 H2]; unfold touched_accounts, touched_requests in *; cbn in H1, H2;
    split; set_solver.
Qed.

Lemma run_full_key E {X} (p : prog X) : forall O s s' r,
  disciplined O p -> run_full E p s = (s', r) -> r <> Err KeyNotAllowed.
Proof.
  unfold run_full.
  induction p as [x|e|k c IH|k c IH|k c IH|k a c IH|k c IH|k b c IH|c IH|c IH|i b l0 c IH];
    intros O s s' r Hd Hrun; cbn [run disciplined] in *;
    try (apply pair_equal_spec in Hrun as [<- <-]; congruence).
  - exact (IH _ _ _ _ _ (Hd _) Hrun).
  - exact (IH _ _ _ _ _ (Hd _) Hrun).
  - exact (IH _ _ _ _ _ (Hd _) Hrun).
  - exact (IH _ _ _ _ (proj2 Hd) Hrun).
  - exact (IH _ _ _ _ _ (Hd _) Hrun).
  - exact (IH _ _ _ _ Hd Hrun).
  - exact (IH _ _ _ _ _ (Hd _) Hrun).
  - exact (IH _ _ _ _ _ _ _ (Hd _ _ _) Hrun).
  - exact (IH _ _ _ _ Hd Hrun).
Qed.

(** When the keys touched on full storage are known, the sparse run does the same. *)
Lemma run_full_sparse E {X} (p : prog X) : forall O sp s s' r,
  disciplined O p -> (forall k, k ∈ O -> k ∈ known_accounts sp) -> agree_map sp (contents s) ->
  run_full E p s = (s', r) ->
  (forall k, k ∈ touched_accounts s' -> k ∈ known_accounts sp) ->
  (forall k, k ∈ touched_requests s' -> request_index k ∈ known_requests sp) ->
  exists sp', run_sparse E p sp = (sp', r).
Proof.
  induction p as [x|e|k c IH|k c IH|k c IH|k a c IH|k c IH|k b c IH|c IH|c IH|i b l0 c IH];
    intros O sp s s' r Hd HO Ha Hrun HA HR; cbn [disciplined] in Hd.
  - unfold run_full in Hrun. cbn [run] in Hrun. apply pair_equal_spec in Hrun as [<- <-].
    eexists. reflexivity.
  - unfold run_full in Hrun. cbn [run] in Hrun. apply pair_equal_spec in Hrun as [<- <-].
    eexists. reflexivity.
  - assert (Hrun' : run_full E (c (default account_default (mk_leaves (vs_accounts s) !! k)))
      (with_accounts (merkle_entry (account_tree E) k (vs_accounts s)).2 s) = (s', r)) by exact Hrun.
    assert (Hk : k ∈ known_accounts sp).
    { apply HA. apply run_touched_mono in Hrun' as [Hm _]. apply Hm.
      unfold touched_accounts. cbn. set_solver. }
    unfold run_sparse. cbn [run sto_entry sparse_storage account_tree tc_index tc_default].
    unfold address_index, guarded. change (tc_index (account_tree E) k) with k. rewrite bool_decide_eq_true_2 by exact Hk.
    rewrite (am_accounts _ _ Ha k Hk).
    destruct (agree_write_account sp (contents s) k
      (default account_default (mk_leaves (vs_accounts s) !! k)) Hk Ha) as [Ha1 Hf1].
    eapply IH; [apply Hd| | |exact Hrun'|exact HA|exact HR]; [|exact Ha1].
    intros q Hq. apply elem_of_cons in Hq as [->|Hq]; [exact Hk|]. now apply HO.
  - assert (Hrun' : run_full E (c (mk_leaves (vs_accounts s) !! k))
      (with_accounts (merkle_get (account_tree E) k (vs_accounts s)).2 s) = (s', r)) by exact Hrun.
    assert (Hk : k ∈ known_accounts sp).
    { apply HA. apply run_touched_mono in Hrun' as [Hm _]. apply Hm.
      unfold touched_accounts. cbn. set_solver. }
    unfold run_sparse. cbn [run sto_get sparse_storage account_tree tc_index].
    unfold address_index, guarded. change (tc_index (account_tree E) k) with k. rewrite bool_decide_eq_true_2 by exact Hk.
    rewrite (am_accounts _ _ Ha k Hk), with_accounts_same.
    eapply IH; [apply Hd|exact HO| |exact Hrun'|exact HA|exact HR]. exact Ha.
  - assert (Hrun' : run_full E (c (mk_leaves (vs_accounts s) !! k))
      (with_accounts (merkle_get_mut (account_tree E) k (vs_accounts s)).2 s) = (s', r)) by exact Hrun.
    assert (Hk : k ∈ known_accounts sp).
    { apply HA. apply run_touched_mono in Hrun' as [Hm _]. apply Hm.
      unfold touched_accounts. cbn. set_solver. }
    unfold run_sparse. cbn [run sto_get_mut sparse_storage account_tree tc_index].
    unfold address_index, guarded. change (tc_index (account_tree E) k) with k. rewrite bool_decide_eq_true_2 by exact Hk.
    rewrite (am_accounts _ _ Ha k Hk), with_accounts_same.
    eapply IH; [apply Hd| | |exact Hrun'|exact HA|exact HR]; [|exact Ha].
    intros q Hq. apply elem_of_cons in Hq as [->|Hq]; [exact Hk|]. now apply HO.
  - destruct Hd as [Hk Hd]. apply HO in Hk.
    assert (Hrun' : run_full E c
      (with_accounts (merkle_put (account_tree E) k a (vs_accounts s)) s) = (s', r)) by exact Hrun.
    unfold run_sparse. cbn [run sto_put sparse_storage account_tree tc_index]. unfold address_index.
    destruct (agree_write_account sp (contents s) k a Hk Ha) as [Ha1 Hf1].
    eapply IH; [exact Hd| | |exact Hrun'|exact HA|exact HR]; [|exact Ha1]. exact HO.
  - assert (Hrun' : run_full E (c (default false (mk_leaves (vs_transactions s) !! request_index k)))
      (with_transactions (merkle_entry (request_tree E) k (vs_transactions s)).2 s) = (s', r)) by exact Hrun.
    assert (Hk : request_index k ∈ known_requests sp).
    { apply HR. apply run_touched_mono in Hrun' as [_ Hm]. apply Hm.
      unfold touched_requests. cbn. set_solver. }
    unfold run_sparse. cbn [run sto_entry sparse_storage request_tree tc_index tc_default].
    unfold guarded. change (tc_index (request_tree E) k) with (request_index k). rewrite bool_decide_eq_true_2 by exact Hk.
    rewrite (am_requests _ _ Ha _ Hk).
    destruct (agree_write_request sp (contents s) _
      (default false (mk_leaves (vs_transactions s) !! request_index k)) Hk Ha) as [Ha1 Hf1].
    eapply IH; [apply Hd| | |exact Hrun'|exact HA|exact HR]; [|exact Ha1]. exact HO.
  - assert (Hrun' : run_full E c
      (with_transactions (merkle_insert (request_tree E) k b (vs_transactions s)) s) = (s', r)) by exact Hrun.
    assert (Hk : request_index k ∈ known_requests sp).
    { apply HR. apply run_touched_mono in Hrun' as [_ Hm]. apply Hm.
      unfold touched_requests. cbn. set_solver. }
    unfold run_sparse. cbn [run sto_insert sparse_storage request_tree tc_index].
    unfold guarded. change (tc_index (request_tree E) k) with (request_index k). rewrite bool_decide_eq_true_2 by exact Hk.
    destruct (agree_write_request sp (contents s) _ b Hk Ha) as [Ha1 Hf1].
    eapply IH; [apply Hd| | |exact Hrun'|exact HA|exact HR]; [|exact Ha1]. exact HO.
  - unfold run_sparse. cbn [run]. rewrite (am_domain _ _ Ha).
    eapply IH; [apply Hd|exact HO|exact Ha|exact Hrun|exact HA|exact HR].
  - unfold run_sparse. cbn [run]. rewrite (am_onchain _ _ Ha), (am_block _ _ Ha), (am_log _ _ Ha).
    eapply IH; [apply Hd|exact HO|exact Ha|exact Hrun|exact HA|exact HR].
  - unfold run_sparse. cbn [run].
    eapply IH; [apply Hd|exact HO| |exact Hrun|exact HA|exact HR].
    destruct Ha. now constructor.
Qed.

(** ** Whole transactions and batches *)

Lemma agree_bump sp l : agree_map sp l -> agree_map (bump_tx_id sp) (bump_tx_id l).
Proof. intros []. constructor; auto. cbn. congruence. Qed.

Lemma framed_bump sp sp' l l' : framed sp sp' l l' -> framed sp (bump_tx_id sp') l (bump_tx_id l').
Proof. intros []. now constructor. Qed.

Lemma execute_sparse_map E t sp l sp' r :
  agree_map sp l -> execute_sparse E t sp = (sp', r) -> r <> ResPanic KeyNotAllowed ->
  exists l', execute_map E t l = (l', r) /\ agree_map sp' l' /\ framed sp sp' l l'.
Proof.
  intros Ha He Hr. unfold execute_sparse, execute in He.
  destruct (run (sparse_storage (account_tree E)) (sparse_storage (request_tree E)) (execute_inner E t) sp)
    as [sp1 r1] eqn:Hrun.
  destruct (run_sparse_map E (execute_inner E t) [] sp l sp1 r1) as (l1 & H1 & H2 & H3).
  - apply disciplined_execute.
  - intros k Hk. now apply elem_of_nil in Hk.
  - exact Ha.
  - exact Hrun.
  - intros ->. apply pair_equal_spec in He as [_ <-]. now apply Hr.
  - unfold execute_map, execute. unfold run_map in H1. rewrite H1.
    destruct r1 as [[o|v]|e]; apply pair_equal_spec in He as [<- <-]; eexists; (split; [reflexivity|]);
      auto using agree_bump, framed_bump.
Qed.

Lemma execute_map_full E t s l' r :
  execute_map E t (contents s) = (l', r) -> exists s', execute_full E t s = (s', r) /\ contents s' = l'.
Proof.
  intros H. destruct (execute_full E t s) as [s' r'] eqn:He.
  pose proof (execute_contents _ _ _ _ _ He) as Hc. rewrite Hc in H.
  apply pair_equal_spec in H as [<- <-]. eauto.
Qed.

Lemma execute_full_touched E t s s' r :
  execute_full E t s = (s', r) ->
  touched_accounts s ⊆ touched_accounts s' /\ touched_requests s ⊆ touched_requests s'.
Proof.
  unfold execute_full, execute. intros He.
  destruct (run (merkle_storage (account_tree E)) (merkle_storage (request_tree E)) (execute_inner E t) s)
    as [s1 r1] eqn:Hrun.
  apply run_touched_mono in Hrun.
  destruct r1 as [[o|v]|e]; apply pair_equal_spec in He as [<- _]; exact Hrun.
Qed.

Lemma execute_full_key E t s s' r : execute_full E t s = (s', r) -> r <> ResPanic KeyNotAllowed.
Proof.
  unfold execute_full, execute. intros He.
  destruct (run (merkle_storage (account_tree E)) (merkle_storage (request_tree E)) (execute_inner E t) s)
    as [s1 r1] eqn:Hrun.
  apply (run_full_key E _ []) in Hrun; [|apply disciplined_execute].
  destruct r1 as [[o|v]|e]; apply pair_equal_spec in He as [_ <-]; congruence.
Qed.

Lemma execute_full_sparse E t sp s s' r :
  agree_map sp (contents s) -> execute_full E t s = (s', r) ->
  (forall k, k ∈ touched_accounts s' -> k ∈ known_accounts sp) ->
  (forall k, k ∈ touched_requests s' -> request_index k ∈ known_requests sp) ->
  exists sp', execute_sparse E t sp = (sp', r).
Proof.
  unfold execute_full, execute_sparse, execute. intros Ha He HA HR.
  destruct (run (merkle_storage (account_tree E)) (merkle_storage (request_tree E)) (execute_inner E t) s)
    as [s1 r1] eqn:Hrun.
  assert (Hs : vs_accounts s' = vs_accounts s1 /\ vs_transactions s' = vs_transactions s1).
  { destruct r1 as [[o|v]|e]; apply pair_equal_spec in He as [<- _]; now split. }
  unfold touched_accounts, touched_requests in HA, HR. rewrite (proj1 Hs) in HA. rewrite (proj2 Hs) in HR.
  destruct (run_full_sparse E (execute_inner E t) [] sp s s1 r1) as (sp1 & H1);
    [apply disciplined_execute|intros k Hk; now apply elem_of_nil in Hk|exact Ha|exact Hrun|exact HA|exact HR|].
  unfold run_sparse in H1. rewrite H1.
  destruct r1 as [[o|v]|e]; apply pair_equal_spec in He as [_ <-]; eauto.
Qed.

Lemma sparse_batch_full E txs : forall sp s sp' rs,
  agree_map sp (contents s) -> sparse_batch E sp txs = (sp', rs) -> ResPanic KeyNotAllowed ∉ rs ->
  exists s', run_batch E s txs = (s', rs) /\ agree_map sp' (contents s') /\
             framed sp sp' (contents s) (contents s').
Proof.
  induction txs as [|t txs IH]; intros sp s sp' rs Ha Hb Hr; cbn [sparse_batch run_batch] in *.
  - apply pair_equal_spec in Hb as [<- <-]. exists s. split; [reflexivity|].
    split; [exact Ha|apply framed_refl].
  - destruct (execute_sparse E t sp) as [sp1 r] eqn:He.
    destruct (sparse_batch E sp1 txs) as [sp2 rs2] eqn:Hb2.
    apply pair_equal_spec in Hb as [<- <-].
    destruct (execute_sparse_map E t sp (contents s) sp1 r Ha He) as (l1 & H1 & H2 & H3).
    { intros ->. apply Hr. left. }
    destruct (execute_map_full _ _ _ _ _ H1) as (s1 & Hf & <-). rewrite Hf.
    destruct (IH sp1 s1 sp2 rs2 H2 Hb2) as (s2 & H4 & H5 & H6).
    { intros Hin. apply Hr. now right. }
    rewrite H4. exists s2. split; [reflexivity|]. split; [exact H5|]. eapply framed_trans; eassumption.
Qed.

Lemma run_batch_touched E txs : forall s s' rs,
  run_batch E s txs = (s', rs) ->
  touched_accounts s ⊆ touched_accounts s' /\ touched_requests s ⊆ touched_requests s'.
Proof.
  induction txs as [|t txs IH]; intros s s' rs Hb; cbn [run_batch] in Hb.
  - apply pair_equal_spec in Hb as [<- _]. now split.
  - destruct (execute_full E t s) as [s1 r] eqn:He. destruct (run_batch E s1 txs) as [s2 rs2] eqn:Hb2.
    apply pair_equal_spec in Hb as [<- _]. apply IH in Hb2. apply execute_full_touched in He.
    destruct He, Hb2. split; etransitivity; eassumption.
Qed.

Lemma full_batch_sparse E txs : forall sp s s' rs,
  agree_map sp (contents s) -> run_batch E s txs = (s', rs) ->
  (forall k, k ∈ touched_accounts s' -> k ∈ known_accounts sp) ->
  (forall k, k ∈ touched_requests s' -> request_index k ∈ known_requests sp) ->
  exists sp', sparse_batch E sp txs = (sp', rs) /\ ResPanic KeyNotAllowed ∉ rs.
Proof.
  induction txs as [|t txs IH]; intros sp s s' rs Ha Hb HA HR; cbn [sparse_batch run_batch] in *.
  - apply pair_equal_spec in Hb as [<- <-]. exists sp. split; [reflexivity|]. apply not_elem_of_nil.
  - destruct (execute_full E t s) as [s1 r] eqn:He. destruct (run_batch E s1 txs) as [s2 rs2] eqn:Hb2.
    apply pair_equal_spec in Hb as [<- <-].
    pose proof (run_batch_touched _ _ _ _ _ Hb2) as [HtA HtR].
    destruct (execute_full_sparse E t sp s s1 r Ha He) as (sp1 & H1).
    { intros k Hk. apply HA, HtA, Hk. } { intros k Hk. apply HR, HtR, Hk. }
    rewrite H1. pose proof (execute_full_key _ _ _ _ _ He) as Hkey.
    destruct (execute_sparse_map E t sp (contents s) sp1 r Ha H1 Hkey) as (l1 & Hm & Ha1 & Hf).
    pose proof (execute_contents _ _ _ _ _ He) as Hc. rewrite Hm in Hc.
    apply pair_equal_spec in Hc as [-> _].
    destruct (IH sp1 s1 s2 rs2 Ha1 Hb2) as (sp2 & H2 & H3).
    { rewrite (fr_known_accounts _ _ _ _ Hf). exact HA. }
    { rewrite (fr_known_requests _ _ _ _ Hf). exact HR. }
    rewrite H2. exists sp2. split; [reflexivity|]. rewrite not_elem_of_cons. split; [congruence|exact H3].
Qed.

(** ** The loop of the state-transition program *)

Lemma stf_loop_spec E txs : forall sp acc,
  stf_loop E txs sp acc =
  (let '(sp', rs) := sparse_batch E sp txs in
   if forallb (fun r => match r with ResPanic _ => false | _ => true end) rs
   then Some (sp', acc ++ batch_receipts rs) else None).
Proof.
  induction txs as [|t txs IH]; intros sp acc; cbn [stf_loop sparse_batch].
  - cbn. now rewrite app_nil_r.
  - destruct (execute_sparse E t sp) as [sp1 r]. destruct r as [[rc|]|v|e].
    + rewrite IH. destruct (sparse_batch E sp1 txs) as [sp2 rs]. cbn [forallb batch_receipts andb].
      destruct (forallb _ rs); [|reflexivity]. now rewrite <- app_assoc.
    + rewrite IH. now destruct (sparse_batch E sp1 txs) as [sp2 rs].
    + rewrite IH. now destruct (sparse_batch E sp1 txs) as [sp2 rs].
    + now destruct (sparse_batch E sp1 txs) as [sp2 rs].
Qed.

Lemma calm_forallb rs :
  forallb (fun r => match r with ResPanic _ => false | _ => true end) rs = true <-> calm rs.
Proof.
  unfold calm. induction rs as [|r rs IH]; cbn [forallb]; [split; [constructor|reflexivity]|].
  rewrite Forall_cons, andb_true_iff, IH. destruct r; cbn; intuition discriminate.
Qed.

Lemma stf_loop_some E txs sp sp' acc rcs :
  stf_loop E txs sp acc = Some (sp', rcs) <->
  exists rs, sparse_batch E sp txs = (sp', rs) /\ calm rs /\ rcs = acc ++ batch_receipts rs.
Proof.
  rewrite stf_loop_spec. destruct (sparse_batch E sp txs) as [sp1 rs]. split.
  - destruct (forallb _ rs) eqn:Hf; [|discriminate]. intros H. injection H as <- <-.
    exists rs. split; [reflexivity|]. split; [now apply calm_forallb|reflexivity].
  - intros (rs' & H & Hc & ->). apply pair_equal_spec in H as [<- <-].
    apply calm_forallb in Hc. now rewrite Hc.
Qed.

Lemma calm_key rs : calm rs -> ResPanic KeyNotAllowed ∉ rs.
Proof. intros Hc Hin. unfold calm in Hc. rewrite Forall_forall in Hc. now apply (Hc _ Hin). Qed.

(** ** Well-formed full states *)

Record state_ok (E : env) (s : full_state) : Prop := {
  so_accounts : tree_ok (account_tree E) (vs_accounts s);
  so_requests : tree_ok (request_tree E) (vs_transactions s)
}.

Lemma tree_ok_uncached {V} (cfg : tree_cfg V) t :
  mk_zero_hashes t = compute_zero_hashes cfg -> mk_cache t = ∅ -> tree_ok cfg t.
Proof. intros H1 H2. split; [exact H1|]. rewrite H2. apply cache_ok_empty. Qed.

Lemma run_state_ok E {X} (p : prog X) : forall O s s' r,
  disciplined O p -> state_ok E s -> (O <> [] -> mk_cache (vs_accounts s) = ∅) ->
  run_full E p s = (s', r) -> state_ok E s'.
Proof.
  unfold run_full.
  induction p as [x|e|k c IH|k c IH|k c IH|k a c IH|k c IH|k b c IH|c IH|c IH|i b l0 c IH];
    intros O s s' r Hd [[Hz Hc] Hr0] HO Hrun; cbn [run disciplined] in *.
  - apply pair_equal_spec in Hrun as [<- _]. constructor; [now constructor|exact Hr0].
  - apply pair_equal_spec in Hrun as [<- _]. constructor; [now constructor|exact Hr0].
  - eapply IH; [apply Hd| | |exact Hrun]; [|reflexivity].
    constructor; [apply tree_ok_uncached; [exact Hz|reflexivity]|exact Hr0].
  - eapply IH; [apply Hd| | |exact Hrun]; [|exact HO].
    constructor; [constructor; [exact Hz|exact Hc]|exact Hr0].
  - eapply IH; [apply Hd| | |exact Hrun]; [|reflexivity].
    constructor; [apply tree_ok_uncached; [exact Hz|reflexivity]|exact Hr0].
  - destruct Hd as [Hk Hd].
    assert (HO' : mk_cache (vs_accounts s) = ∅) by (apply HO; intros ->; now apply elem_of_nil in Hk).
    eapply IH; [exact Hd| | |exact Hrun]; [|intros _; exact HO'].
    constructor; [apply tree_ok_uncached; [exact Hz|exact HO']|exact Hr0].
  - eapply IH; [apply Hd| | |exact Hrun]; [|exact HO].
    constructor; [constructor; [exact Hz|exact Hc]|].
    apply tree_ok_uncached; [apply (to_zero _ _ Hr0)|reflexivity].
  - eapply IH; [apply Hd| | |exact Hrun]; [|exact HO].
    constructor; [constructor; [exact Hz|exact Hc]|].
    apply tree_ok_uncached; [apply (to_zero _ _ Hr0)|reflexivity].
  - eapply IH; [apply Hd| | |exact Hrun]; [|exact HO].
    constructor; [constructor; [exact Hz|exact Hc]|exact Hr0].
  - eapply IH; [apply Hd| | |exact Hrun]; [|exact HO].
    constructor; [constructor; [exact Hz|exact Hc]|exact Hr0].
  - eapply IH; [exact Hd| | |exact Hrun]; [|exact HO].
    constructor; [constructor; [exact Hz|exact Hc]|exact Hr0].
Qed.

Lemma execute_state_ok E t s s' r : state_ok E s -> execute_full E t s = (s', r) -> state_ok E s'.
Proof.
  unfold execute_full, execute. intros Hs He.
  destruct (run (merkle_storage (account_tree E)) (merkle_storage (request_tree E)) (execute_inner E t) s)
    as [s1 r1] eqn:Hrun.
  apply (run_state_ok E _ []) in Hrun; [|apply disciplined_execute|exact Hs|now intros []].
  destruct r1 as [[o|v]|e]; apply pair_equal_spec in He as [<- _]; [| |exact Hrun];
    destruct Hrun; now constructor.
Qed.

Lemma run_batch_ok E txs : forall s s' rs, state_ok E s -> run_batch E s txs = (s', rs) -> state_ok E s'.
Proof.
  induction txs as [|t txs IH]; intros s s' rs Hs Hb; cbn [run_batch] in Hb.
  - apply pair_equal_spec in Hb as [<- _]. exact Hs.
  - destruct (execute_full E t s) as [s1 r] eqn:He. destruct (run_batch E s1 txs) as [s2 rs2] eqn:Hb2.
    apply pair_equal_spec in Hb as [<- _]. eapply IH; [|exact Hb2]. eapply execute_state_ok; eassumption.
Qed.

Lemma merkle_proof_tree_ok {V} (cfg : tree_cfg V) t k :
  (tc_bits cfg < 256)%nat -> tree_ok cfg t -> tree_ok cfg (merkle_proof cfg k t).2.
Proof.
  intros Hb Ht. destruct (N.lt_ge_cases (tc_index cfg k) (2 ^ N.of_nat (tc_bits cfg))) as [Hi|Hi].
  - apply merkle_proof_spec; [exact Ht|lia|exact Hi].
  - rewrite merkle_proof_out; [exact Ht|exact Hb|]. unfold in_tree. lia.
Qed.

Lemma happens_ok E s ev s' : state_ok E s -> happens E s ev s' -> state_ok E s'.
Proof.
  intros Hs H. inversion H; subst.
  - eapply execute_state_ok; eassumption.
  - destruct Hs. constructor; [|assumption]. apply merkle_proof_tree_ok; [cbn; lia|assumption].
  - destruct Hs. constructor; [assumption|]. apply merkle_proof_tree_ok; [cbn; lia|assumption].
  - destruct Hs as [[H1 H2] H3]. constructor; [|exact H3]. constructor; [exact H1|exact H2].
  - destruct Hs as [H1 [H2 H3]]. constructor; [exact H1|]. constructor; [exact H2|exact H3].
  - destruct Hs as [[H1 H2] [H3 H4]].
    constructor; constructor; [exact H1|exact H2|exact H3|exact H4].
Qed.

Lemma history_ok E s evs s' : state_ok E s -> history E s evs s' -> state_ok E s'.
Proof. intros Hs H. induction H; [exact Hs|]. apply IHhistory. eapply happens_ok; eassumption. Qed.

Lemma new_ok E d : state_ok E (full_new E d).
Proof. constructor; [exact (tree_ok_new (account_tree E))|exact (tree_ok_new (request_tree E))]. Qed.
