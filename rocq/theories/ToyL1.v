(** A sample log of the settlement contract; used only in examples. *)
From Verif Require Export L1Live ToyTyped.
From Coq Require Import ZifyBool ZifyN ZifyNat.
Open Scope N_scope.

(** ** Running a log *)

Fixpoint run_log (L : l1_env) (log : list l1_entry) (v : l1_state) : option l1_state :=
  match log with
  | [] => Some v
  | LAccepted x c _ :: rest =>
      match l1_run L x c v with Ok v1 => run_log L rest v1 | Err _ => None end
  | LReverted x c e :: rest =>
      match l1_run L x c v with
      | Ok _ => None
      | Err e' =>
          match e, e' with
          | L1NotAuctioneer, L1NotAuctioneer | L1ReceiptMismatch, L1ReceiptMismatch
          | L1OutOfOrder, L1OutOfOrder => run_log L rest v
          | _, _ => None
          end
      end
  | LToken o :: rest =>
      match run_token_op (va_prove v) o with Ok t => run_log L rest (va_set_prove t v) | Err _ => None end
  end.

Lemma run_log_ok L log : forall v v', run_log L log v = Some v' -> l1_history L v log v'.
Proof.
  induction log as [|e log IH]; intros v v' H; cbn [run_log] in H.
  - assert (v = v') as <- by congruence. constructor.
  - destruct e as [x c i|x c e|o].
    + destruct (l1_run L x c v) as [v1|] eqn:Hr; [|discriminate]. eapply lh_accepted; [|apply IH; exact H].
      unfold l1_transact. now rewrite Hr.
    + destruct (l1_run L x c v) as [v1|e'] eqn:Hr; [discriminate|].
      assert (e = e') as -> by (destruct e, e'; try discriminate; reflexivity).
      eapply (lh_reverted L v x c e' v); [unfold l1_transact; now rewrite Hr|]. apply IH.
      destruct e'; try discriminate; exact H.
    + destruct (run_token_op (va_prove v) o) as [t|] eqn:Hr; [|discriminate].
      eapply lh_token; [exact Hr|]. apply IH. exact H.
Qed.

(** ** The environment *)

Definition toy_self : N := 5000.
Definition toy_vault : N := 5001.
Definition toy_staking : N := 5002.
Definition toy_decode (b : bytes) : option step_pv :=
  match decode_step b with
  | Some p => if forallb (fun r => forallb (fun x => x <? 256) (sr_action r)) (pv_receipts p) then Some p else None
  | None => None
  end.
(** The verifier accepts only the proof [7]. *)
Definition toy_l1 : l1_env :=
  L1Env toy_self toy_vault (fun _ _ _ proof => bytes_eqb proof [7]) toy_decode.

Lemma toy_l1_ok : l1_env_ok toy_l1.
Proof.
  constructor; cbn [toy_l1 le_decode].
  - intros p Hp. unfold toy_decode. rewrite (decode_step_spec p Hp).
    assert (H : forallb (fun r => forallb (fun x => x <? 256) (sr_action r)) (pv_receipts p) = true).
    { apply forallb_forall. intros r Hr%elem_of_list_In. apply forallb_forall. intros x Hx%elem_of_list_In.
      destruct Hp as (_ & _ & _ & Hp & _). rewrite Forall_forall in Hp. destruct (Hp r Hr) as [_ [Hb _]].
      unfold bytes_ok in Hb. rewrite Forall_forall in Hb. apply N.ltb_lt. exact (Hb x Hx). }
    rewrite H. reflexivity.
  - intros b p r. unfold toy_decode. destruct (decode_step b) as [p'|]; [|discriminate].
    destruct (forallb _ _) eqn:H; [|discriminate]. intros Hp Hr. assert (p' = p) as -> by congruence.
    rewrite forallb_forall in H. apply elem_of_list_In in Hr. specialize (H r Hr). cbv beta in H.
    rewrite forallb_forall in H. apply Forall_forall. intros x Hx%elem_of_list_In. apply N.ltb_lt. exact (H x Hx).
Qed.
Lemma toy_addresses_ok : addresses_ok toy_l1.
Proof. constructor; discriminate. Qed.

Definition toy_ctx (sender time : N) : l1_ctx :=
  L1Ctx sender time (fun a => a =? prover1) (fun a => if a =? prover1 then owner1 else 0) (fun _ _ => true) false.

Definition toy_contract (root : N) : l1_state :=
  VApp 1 false 4 auctioneer1 toy_staking 3 0 10 0 0 {[ 0 := root ]} ∅ ∅
    (tk_approve (Token ∅ ∅) toy_self toy_vault u256_max).
Lemma toy_deployed root : (root =? 0) = false ->
  l1_initialize toy_l1 (Token ∅ ∅) 1 2 auctioneer1 toy_staking 3 10 4 root = Some (toy_contract root).
Proof. intros H. unfold l1_initialize. rewrite H. reflexivity. Qed.
Definition toy_v0 : l1_state := toy_contract (full_root toy_env world0).

(** ** The log *)

Definition step_a : step_pv := Eval vm_compute in
  default (StepPv 0 0 0 []) (step_of toy_env [input_a]).
Definition step_b : step_pv := Eval vm_compute in
  default (StepPv 0 0 0 []) (step_of toy_env [input_b]).

Lemma step_of_made E inputs p :
  step_of E inputs = Some p -> N.of_nat (length (abi_step p)) < 2 ^ 256 ->
  made_from E toy_hash (fun _ => true) inputs (abi_step p).
Proof.
  unfold step_of. destruct (checked_commits E inputs) as [pvs|] eqn:Hc; [|discriminate].
  intros Ha Hl. destruct (checked_commits_ok E inputs pvs Hc) as [H1 H2].
  split; [exact H1|]. exists pvs, p. auto.
Qed.

Definition toy_log : list l1_entry :=
  let b_a := abi_step step_a in let b_b := abi_step step_b in
  [ LToken (OMint alice 1200); LToken (OMint bob 100);
    LToken (OApprove alice toy_self 1000); LToken (OApprove bob toy_self 77);
    LAccepted (toy_ctx alice 900) (CDeposit 1000) [];
    LReverted (toy_ctx bob 950) (CStep b_a [7]) L1NotAuctioneer;
    LAccepted (toy_ctx bob 960) (CPermitAndDeposit bob 77) [];
    LAccepted (toy_ctx auctioneer1 1001) (CStep b_a [7]) [input_a];
    LAccepted (toy_ctx toy_staking 1002) (CCreateProver prover1 owner1 1000) [];
    LToken (OTransfer alice toy_self 5);
    LAccepted (toy_ctx auctioneer1 1010) (CStep b_b [7]) [input_b] ].

Definition toy_v1 : l1_state := default toy_v0 (run_log toy_l1 toy_log toy_v0).
(** The log before the last step. *)
Definition toy_log1 : list l1_entry := take 10 toy_log.
Definition toy_v2 : l1_state := default toy_v0 (run_log toy_l1 toy_log1 toy_v0).

Lemma run_log_default L log v :
  (match run_log L log v with Some _ => true | None => false end) = true ->
  l1_history L v log (default v (run_log L log v)).
Proof. destruct (run_log L log v) as [v'|] eqn:H; [|discriminate]. intros _. now apply run_log_ok. Qed.

Lemma toy_root_nonzero : (full_root toy_env world0 =? 0) = false.
Proof. vm_compute. reflexivity. Qed.

Lemma toy_history : l1_history toy_l1 toy_v0 toy_log toy_v1.
Proof. apply run_log_default. vm_compute. reflexivity. Qed.
Lemma toy_history1 : l1_history toy_l1 toy_v0 toy_log1 toy_v2.
Proof. apply run_log_default. vm_compute. reflexivity. Qed.

Definition typed_callb (x : l1_ctx) (c : l1_call) : bool :=
  (cx_sender x <? 2 ^ 160) &&
  match c with
  | CDeposit amount => amount <? 2 ^ 256
  | CPermitAndDeposit from amount => (from <? 2 ^ 160) && (amount <? 2 ^ 256)
  | CCreateProver prover owner bips => (prover <? 2 ^ 160) && (owner <? 2 ^ 160) && (bips <? 2 ^ 256)
  | _ => true
  end.
Definition typed_entryb (e : l1_entry) : bool := match e with LAccepted x c _ => typed_callb x c | _ => true end.
Lemma typed_entryb_ok e : typed_entryb e = true -> typed_entry e.
Proof.
  destruct e as [x c i| |]; cbn [typed_entryb typed_entry]; auto. unfold typed_callb, typed_call.
  destruct c; rewrite !andb_true_iff, ?N.ltb_lt; unfold is_address, is_word; tauto.
Qed.
Lemma toy_typed : Forall typed_entry toy_log.
Proof. apply (forallb_ok typed_entryb); [exact typed_entryb_ok|vm_compute; reflexivity]. Qed.

Lemma toy_made_a : made_from toy_env toy_hash (fun _ => true) [input_a] (abi_step step_a).
Proof. apply step_of_made; [vm_compute; reflexivity|]. apply N.ltb_lt. vm_compute. reflexivity. Qed.
Lemma toy_made_b : made_from toy_env toy_hash (fun _ => true) [input_b] (abi_step step_b).
Proof. apply step_of_made; [vm_compute; reflexivity|]. apply N.ltb_lt. vm_compute. reflexivity. Qed.

Lemma toy_settled_from log v :
  l1_history toy_l1 toy_v0 log v -> Forall (fun e => e ∈ toy_log) log ->
  settled_run toy_env toy_l1 toy_hash (fun _ => true) toy_domain toy_v0 log v.
Proof.
  intros Hh Hin.
  assert (Hall : forall P : l1_entry -> Prop, Forall P toy_log -> Forall P log).
  { intros P HP. eapply Forall_impl; [exact Hin|]. intros e He. rewrite Forall_forall in HP. now apply HP. }
  constructor.
  - exact toy_env_ok.
  - exact toy_l1_ok.
  - exact toy_addresses_ok.
  - apply wordb_ok. reflexivity.
  - exists (Token ∅ ∅), 1, 2, auctioneer1, toy_staking, 3, 10, 4.
    split; [exact (toy_deployed _ toy_root_nonzero)|]. intros s. unfold tk_allowance. cbn [tk_allowances].
    now rewrite lookup_empty.
  - exact Hh.
  - apply Hall, toy_typed.
  - apply Hall. repeat constructor.
  - apply Hall. repeat (constructor; [cbn [own_actions]; try exact I; try discriminate|]).
    constructor.
  - apply Hall. unfold toy_log. cbv zeta.
    repeat (constructor; [cbn [proofs_sound]; try exact I; try exact toy_made_a; try exact toy_made_b|]).
    constructor.
Qed.

Lemma toy_settled : settled_run toy_env toy_l1 toy_hash (fun _ => true) toy_domain toy_v0 toy_log toy_v1.
Proof. apply toy_settled_from; [exact toy_history|]. apply Forall_forall. auto. Qed.
Lemma toy_settled1 : settled_run toy_env toy_l1 toy_hash (fun _ => true) toy_domain toy_v0 toy_log1 toy_v2.
Proof.
  apply toy_settled_from; [exact toy_history1|]. apply Forall_forall. intros e He.
  unfold toy_log1 in He. rewrite <- (take_drop 10 toy_log). apply elem_of_app. now left.
Qed.

Definition step_allowedb (L : l1_env) (x : l1_ctx) (b proof : bytes) (p : step_pv) (v : l1_state) : bool :=
  (cx_sender x =? va_auctioneer v) && negb (va_paused v) && le_verify L (va_verifier v) (va_vkey v) b proof &&
  negb (pv_new_root p =? 0) && (pv_old_root p =? va_root v) && (va_timestamp v <=? pv_timestamp p) &&
  (pv_timestamp p <=? cx_time x) && (cx_time x <=? pv_timestamp p + 3600).
Lemma step_allowedb_ok L x b proof p v :
  le_decode L b = Some p -> step_allowedb L x b proof p v = true -> step_allowed L x b proof p v.
Proof.
  intros Hd. unfold step_allowedb. rewrite !andb_true_iff, !negb_true_iff, !N.leb_le, !N.eqb_eq, N.eqb_neq.
  intros [[[[[[[H1 H2] H3] H4] H5] H6] H7] H8]. constructor; auto.
Qed.
Lemma toy_allowed_b : step_allowed toy_l1 (toy_ctx auctioneer1 1010) (abi_step step_b) [7] step_b toy_v2.
Proof. apply step_allowedb_ok; vm_compute; reflexivity. Qed.
Lemma toy_copied_b : Forall (from_queue (created toy_log1)) (all_txs [input_b]).
Proof. repeat constructor. exists 1%nat. split; reflexivity. Qed.
Lemma toy_receivers_b : Forall (can_receive (toy_ctx auctioneer1 1010)) (pv_receipts step_b).
Proof.
  assert (H : forallb (fun r => match withdrawal (sr_action r) with
      | Some (a, n) => negb (a =? 0) && cx_vault_accepts (toy_ctx auctioneer1 1010) a n
      | None => true end) (pv_receipts step_b) = true) by (vm_compute; reflexivity).
  revert H. apply forallb_ok. intros r Hr a n _ Hw. rewrite Hw in Hr.
  apply andb_true_iff in Hr as [H1 H2]. split; [now apply N.eqb_neq, negb_true_iff|auto].
Qed.
