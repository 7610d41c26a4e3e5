(** Boolean tests for the hypotheses of the theorems on the state-transition program, and a sample
    input of that program; used only in examples. *)
From Verif Require Export StfFacts ToyTree Toy.
From Coq Require Import ZifyBool ZifyN ZifyNat.
Open Scope N_scope.

(** ** Boolean tests *)

Fixpoint collision_go (hash : bytes -> N) (seen : gmap N bytes) (l : list bytes) : bool :=
  match l with
  | [] => true
  | x :: rest =>
      let h := hash x in
      negb (h =? 0) &&
      (match seen !! h with Some y => bytes_eqb x y | None => true end) &&
      collision_go hash (<[h := x]> seen) rest
  end.
Definition collision_freeb (hash : bytes -> N) (l : list bytes) : bool := collision_go hash ∅ l.

Lemma bytes_eqb_eq a b : bytes_eqb a b = true -> a = b.
Proof. apply bool_decide_eq_true. Qed.

Lemma collision_go_ok hash l : forall seen,
  (forall h y, seen !! h = Some y -> hash y = h) ->
  collision_go hash seen l = true ->
  (forall a, a ∈ l -> hash a <> 0) /\
  (forall a y, a ∈ l -> seen !! hash a = Some y -> a = y) /\
  (forall a b, a ∈ l -> b ∈ l -> hash a = hash b -> a = b).
Proof.
  induction l as [|x l IH]; intros seen Hs H; cbn [collision_go] in H.
  - split; [|split]; intros; exfalso; eapply not_elem_of_nil; eassumption.
  - apply andb_true_iff in H as [H H3]. apply andb_true_iff in H as [H1 H2].
    apply negb_true_iff, N.eqb_neq in H1.
    apply IH in H3 as (K1 & K2 & K3).
    2:{ intros h y. destruct (decide (hash x = h)) as [<-|Hne].
        - rewrite lookup_insert. congruence.
        - rewrite lookup_insert_ne by exact Hne. apply Hs. }
    assert (Hx : forall b, b ∈ l -> hash b = hash x -> b = x).
    { intros b Hb He. apply (K2 b x Hb). rewrite He. apply lookup_insert. }
    split; [|split].
    + intros a Ha. apply elem_of_cons in Ha as [->|Ha]; auto.
    + intros a y Ha Hy. apply elem_of_cons in Ha as [->|Ha].
      * rewrite Hy in H2. now apply bytes_eqb_eq.
      * destruct (decide (hash x = hash a)) as [He|Hne].
        -- assert (a = x) as -> by (apply Hx; auto). rewrite Hy in H2. now apply bytes_eqb_eq.
        -- apply (K2 a y Ha). now rewrite lookup_insert_ne.
    + intros a b Ha Hb He. apply elem_of_cons in Ha as [->|Ha], Hb as [->|Hb].
      * reflexivity.
      * symmetry. apply Hx; auto.
      * apply Hx; auto.
      * now apply K3.
Qed.

Lemma collision_freeb_ok hash l : collision_freeb hash l = true -> collision_free hash l.
Proof.
  intros H. apply collision_go_ok in H as (H1 & _ & H3); [now split|].
  intros h y. rewrite lookup_empty. discriminate.
Qed.

Definition typed_accountb (a : account) : bool :=
  (acc_balance a <? 2 ^ 256) && (acc_owner a <? 2 ^ 160) && (acc_signer a <? 2 ^ 160) &&
  (acc_bips a <? 2 ^ 256).
Definition typed_countersb {A R} (s : vstate A R) : bool :=
  (vs_domain s <? 2 ^ 256) && (vs_tx_id s <? 2 ^ 64) && (vs_onchain_tx_id s <? 2 ^ 64) &&
  (vs_onchain_block s <? 2 ^ 64) && (vs_onchain_log_index s <? 2 ^ 64).
Definition typed_fullb (s : full_state) : bool :=
  typed_countersb s &&
  forallb (fun ka => (ka.1 <? 2 ^ 160) && typed_accountb ka.2) (map_to_list (accounts s)).
Definition typed_inputb (i : stf_input) : bool :=
  (si_accounts_root i <? 2 ^ 256) && (si_requests_root i <? 2 ^ 256) && typed_countersb (si_state i) &&
  forallb (fun p => (mp_key p <? 2 ^ 160) && forallb (fun x => x <? 2 ^ 256) (mp_path p) &&
     match mp_value p with Some a => typed_accountb a | None => true end) (si_account_proofs i) &&
  forallb (fun p => forallb (fun x => x <? 2 ^ 256) (mp_path p)) (si_request_proofs i).

Lemma typed_accountb_ok a : typed_accountb a = true -> typed_account a.
Proof.
  unfold typed_accountb, typed_account, is_word, is_address. rewrite !andb_true_iff, !N.ltb_lt. tauto.
Qed.
Lemma typed_countersb_ok {A R} (s : vstate A R) : typed_countersb s = true -> typed_counters s.
Proof.
  unfold typed_countersb, typed_counters, is_word, is_u64. rewrite !andb_true_iff, !N.ltb_lt. tauto.
Qed.
Lemma typed_fullb_ok s : typed_fullb s = true -> typed_full s.
Proof.
  unfold typed_fullb, typed_full. rewrite andb_true_iff, forallb_forall. intros [H1 H2].
  split; [now apply typed_countersb_ok|]. intros k a Hk. apply elem_of_map_to_list, elem_of_list_In in Hk.
  apply H2 in Hk. cbn [fst snd] in Hk. apply andb_true_iff in Hk as [Hk1 Hk2].
  split; [now apply N.ltb_lt|now apply typed_accountb_ok].
Qed.
Lemma words_ok l : forallb (fun x => x <? 2 ^ 256) l = true -> Forall is_word l.
Proof.
  rewrite forallb_forall. intros H. apply Forall_forall. intros x Hx%elem_of_list_In.
  apply N.ltb_lt. exact (H x Hx).
Qed.
Lemma typed_inputb_ok i : typed_inputb i = true -> typed_input i.
Proof.
  unfold typed_inputb, typed_input. rewrite !andb_true_iff, !N.ltb_lt, !forallb_forall.
  intros [[[[H1 H2] H3] H4] H5]. split; [exact H1|]. split; [exact H2|].
  split; [now apply typed_countersb_ok|]. split.
  - intros p Hp%elem_of_list_In. apply H4 in Hp. apply andb_true_iff in Hp as [Hp Hp3].
    apply andb_true_iff in Hp as [Hp1 Hp2]. split; [now apply N.ltb_lt|]. split; [now apply words_ok|].
    intros a Ha. rewrite Ha in Hp3. now apply typed_accountb_ok.
  - intros p Hp%elem_of_list_In. apply words_ok. now apply H5.
Qed.

Lemma toy_env_ok : env_ok toy_env.
Proof.
  assert (Hmask : forall x, N.land x toy_mask < two256).
  { intros x. change toy_mask with (N.ones 256). rewrite N.land_ones. apply N.mod_lt. now vm_compute. }
  constructor.
  - intros bs. cbn [toy_env keccak]. unfold toy_hash.
    destruct bs as [|b bs]; [vm_compute; reflexivity|].
    cbn [length toy_chunks].
    assert (Hgo : forall f l acc, acc < two256 -> toy_chunks f l acc < two256).
    { induction f as [|f IH]; intros [|c l] acc Hacc; cbn [toy_chunks]; auto. }
    apply Hgo. apply Hmask.
  - intros m s a H. cbn [toy_env ecrecover] in H. unfold toy_recover in H. cbv zeta in H.
    destruct (bytes_eqb _ _) eqn:Hb; [|discriminate]. injection H as <-.
    apply bytes_eqb_eq in Hb.
    assert (Hok : bytes_ok (take 20 s)).
    { apply bytes_ok_take. rewrite Hb. unfold toy_sig. apply Forall_app. split; apply be_bytes_ok. }
    pose proof (from_be_lt _ Hok) as H. eapply N.lt_le_trans; [exact H|].
    change two160 with (256 ^ N.of_nat 20). apply N.pow_le_mono_r; [discriminate|].
    rewrite take_length. lia.
  - intros s n. cbn [toy_env parse_u256]. unfold toy_parse.
    destruct s as [|c s]; [discriminate|]. destruct (forallb _ _); [|discriminate]. cbv zeta.
    destruct (N.ltb_spec (fold_left (fun acc d => acc * 10 + (d - 48)) (c :: s) 0) two256) as [Hl|Hl];
      [|discriminate]. intros [= <-]. exact Hl.
Qed.

(** ** An honest input *)

(** The proofs of a list of keys. *)
Definition proofs_of {V} (cfg : tree_cfg V) (t : merkle V) (keys : list N) : list (mproof V) :=
  omap (fun k => match (merkle_proof cfg k t).1 with Ok p => Some p | Err _ => None end) keys.

(** What a node does: clear the tracking, run the batch, prove the touched keys against the old state. *)
Definition cleared (s : full_state) : full_state :=
  with_accounts (merkle_clear_tracking (vs_accounts s))
    (with_transactions (merkle_clear_tracking (vs_transactions s)) s).
Definition honest_input (E : env) (s : full_state) (txs : list tx) (timestamp : N) : stf_input :=
  let s1 := (run_batch E (cleared s) txs).1 in
  StfInput (full_root E s) (merkle_root (account_tree E) (vs_accounts s))
    (merkle_root (request_tree E) (vs_transactions s))
    (VState (vs_domain s) (vs_tx_id s) (vs_onchain_tx_id s) (vs_onchain_block s) (vs_onchain_log_index s)
       (Sparse {[ 5 := Account 999 0 0 0 ]} {[ 5 ]}) (Sparse ∅ ∅))
    (proofs_of (account_tree E) (vs_accounts s) (elements (touched_accounts s1)))
    (proofs_of (request_tree E) (vs_transactions s) (elements (touched_requests s1)))
    txs timestamp.

(** The sample batch: two transfers (the second reverts), a deposit and a withdrawal. *)
Definition batch1 : list tx :=
  [ tx_transfer alice 1 bob 100 2;
    tx_transfer bob 1 alice 5000 1;
    tx_deposit 5 105 2 bob 77;
    tx_withdraw alice 1 alice 200 2 ].
(** Evaluated here so that checking the examples is faster. *)
Definition input1 : stf_input := Eval vm_compute in honest_input toy_env world1 batch1 1000.

(** A delegation whose delegate is not an address. *)
Definition bad_delegate : tx :=
  TxDelegate (sign_bin encode_delegation owner1
    (DelegationBody 1 [1; 2; 3] (addr prover1) dom 5 (addr auctioneer1) (toy_num 3))).

(** The batch of this input panics in the middle; all keys it needs are proven. *)
Definition panicking_input : stf_input := Eval vm_compute in
  honest_input toy_env world1 [transfer1; bad_delegate; tx_deposit 5 105 2 bob 77] 1000.
(** The proofs of a present and of an absent key, and a storage that holds other data. *)
Definition tree_a : merkle N := after_ops small_tree ops_a.
Definition proofs_a : list (mproof N) := proofs_of small_tree tree_a [5; 6].
Definition old_sparse : sparse N := Sparse {[ 9 := 1; 5 := 7 ]} {[ 9 ]}.
(** The part of a full ledger at these indices. *)
Definition view_of (s : full_state) (account_ix request_ix : gset N) : sparse_state :=
  VState (vs_domain s) (vs_tx_id s) (vs_onchain_tx_id s) (vs_onchain_block s) (vs_onchain_log_index s)
    (Sparse (accounts s) account_ix) (Sparse (flags s) request_ix).
Lemma view_agrees s A R : agrees (view_of s A R) s.
Proof. constructor; reflexivity. Qed.

(** Known: the accounts of Alice, Bob and the auctioneer, and the ids of the batch's messages. *)
Definition view1 : sparse_state :=
  view_of world1 {[ alice; bob; auctioneer1 ]}
    (list_to_set (map (fun p => request_index (mp_key p)) (si_request_proofs input1))).

(** Two ways to the same contents. *)
Definition path_a : list tx := [tx_deposit 1 100 0 alice 10; tx_deposit 2 100 3 bob 20].
Definition path_b : list tx := [tx_deposit 1 90 7 bob 20; tx_deposit 2 100 3 alice 10].
Definition world_a : full_state := (run_txs toy_env path_a world0).2.
Definition world_b : full_state := (run_txs toy_env path_b world0).2.

Lemma keys_listed {V} (m : gmap N V) k : is_Some (m !! k) -> k ∈ map fst (map_to_list m).
Proof.
  intros [v Hv]. apply elem_of_list_fmap. exists (k, v). split; [reflexivity|].
  now apply elem_of_map_to_list.
Qed.
