(** A concrete deployment of all contracts and logs of calls, for the examples beside the properties. *)
From Verif Require Export Proofs_Network ToyL1 ToyGovernor.
From Coq Require Import Lia ZifyBool ZifyN ZifyNat.
Open Scope N_scope.

(** Deciding who may call. *)
Definition net_actsb (Y : net_env) (n : network) (a : N) : bool :=
  forallb (fun b => negb (a =? b)) [0; ne_staking Y; ne_iprove Y; ne_governor Y; ne_vapp Y] &&
  negb (bool_decide (a ∈ rg_provers (sk_registry (w_staking (nw_world n))))).
Definition signsb (Y : net_env) (a : N) : bool := forallb (fun b => negb (a =? b)) [ne_staking Y; ne_iprove Y; ne_vapp Y].
Definition permits_signedb (Y : net_env) (c : staking_call) : bool :=
  match c with KPermitAndStake _ from _ => signsb Y from | _ => true end.
Definition net_by_anyoneb (Y : net_env) (n : network) (x : net_ctx) (c : net_call) : bool :=
  net_actsb Y n (nx_sender x) &&
  match c with
  | CVApp (CPermitAndDeposit from _) => signsb Y from
  | CVApp _ => true
  | CWorld (WStaking c) => permits_signedb Y c
  | CWorld (WToken o) =>
      match o with
      | OTransfer a _ _ | OTransferFrom a _ _ _ | OApprove a _ _ | OBurn a _ | OBurnFrom a _ _ => signsb Y a
      | OMint _ _ => true
      end
  | CWorld (WExecute actions _ _) =>
      forallb (fun a => match a with GaStaking c => permits_signedb Y c | _ => true end) actions
  | CWorld _ => true
  end.
Lemma net_actsb_ok Y n a : net_actsb Y n a = true -> net_acts Y n a.
Proof.
  unfold net_actsb, net_acts. cbn [forallb]. rewrite !andb_true_iff, !negb_true_iff, !N.eqb_neq, bool_decide_eq_false. tauto.
Qed.
Lemma signsb_ok Y a : signsb Y a = true -> signs Y a.
Proof. unfold signsb, signs. cbn [forallb]. rewrite !andb_true_iff, !negb_true_iff, !N.eqb_neq. tauto. Qed.
Lemma permits_signedb_ok Y c : permits_signedb Y c = true -> permits_signed Y c.
Proof. destruct c; cbn; try (intros; exact I). apply signsb_ok. Qed.
Lemma net_by_anyoneb_ok Y n x c : net_by_anyoneb Y n x c = true -> net_by_anyone Y n x c.
Proof.
  unfold net_by_anyoneb, net_by_anyone. rewrite andb_true_iff. intros [H1 H]. split; [now apply net_actsb_ok|].
  destruct c as [c|c]; destruct c; try exact I.
  - intros _. now apply signsb_ok.
  - now apply permits_signedb_ok.
  - destruct o; cbn in *; try exact I; now apply signsb_ok.
  - revert H. apply forallb_all. intros [c|m|m|m|m|o|vc|target]; try (intros; exact I). apply permits_signedb_ok.
Qed.

(** Running a list of calls and writing the log; nothing if a call is not allowed by the rules of logs. *)
Fixpoint net_exec (Y : net_env) (l : list (net_ctx * net_call * list stf_input)) (log : list net_entry) (n : network) (now : N)
    : option (list net_entry * network * N) :=
  match l with
  | [] => Some (log, n, now)
  | (x, c, i) :: rest =>
      if (now <=? nx_time x) && (nx_time x <? 2 ^ 48) && net_by_anyoneb Y n x c then
        match net_run_call Y x c n with
        | Ok n' => net_exec Y rest (log ++ [NAccepted x c i n']) n' (nx_time x)
        | Err e => net_exec Y rest (log ++ [NReverted x c e]) n (nx_time x)
        end
      else None
  end.
Lemma net_exec_ok Y t0 n0 l : forall log n now log' n' now', net_run Y t0 n0 log n now ->
  net_exec Y l log n now = Some (log', n', now') -> net_run Y t0 n0 log' n' now'.
Proof.
  induction l as [|[[x c] i] rest IH]; intros log n now log' n' now' Hr H; cbn [net_exec] in H.
  - injection H as <- <- <-. exact Hr.
  - destruct (_ && _ && _) eqn:E in H; [|discriminate]. apply andb_true_iff in E as [E E3]. apply andb_true_iff in E as [E1 E2].
    apply N.leb_le in E1. apply N.ltb_lt in E2. apply net_by_anyoneb_ok in E3.
    pose proof (nr_wait _ _ _ _ _ _ _ Hr E1 E2) as Hw.
    destruct (net_run_call Y x c n) as [n1|e] eqn:Ew; (eapply IH; [|exact H]).
    + eapply nr_accepted; [exact Hw|reflexivity|exact E3|exact Ew].
    + eapply nr_reverted; [exact Hw|reflexivity|exact E3|exact Ew].
Qed.

Lemma net_exec_log Y l : forall log n now,
  net_exec Y l log n now = option_map (fun r => (log ++ r.1.1, r.1.2, r.2)) (net_exec Y l [] n now).
Proof.
  induction l as [|[[x c] i] rest IH]; intros log n now; cbn [net_exec].
  - cbn. now rewrite app_nil_r.
  - destruct (_ && _ && _); [|reflexivity].
    destruct (net_run_call Y x c n) as [n1|e]; rewrite IH; symmetry; rewrite IH; symmetry;
      destruct (net_exec Y rest [] _ _) as [[[m n'] t']|]; cbn; try reflexivity; now rewrite <- app_assoc.
Qed.

(** ** A deployment *)

(** The first prover gets the address [prover1]. *)
Definition toy_net : net_env :=
  NetEnv 5002 5000 5001 5003 (fun _ _ _ proof => bytes_eqb proof [7]) toy_decode
    (fun _ n _ => if n =? 1 then prover1 else 9000 + n mod 2 ^ 64) (fun _ d => d) (fun _ => None) 10 5 20 30.
Definition toy_root0 : N := Eval vm_compute in full_root toy_env world0.
Definition toy_params : deploy_params := DeployParams 2 5 6 100 4 1 auctioneer1 3 10 4 6 toy_root0.
Definition net_ctx_at (sender time : N) : net_ctx := NetCtx sender time false (fun _ => false) (fun _ => 0).
Definition toy_net0 : network := Eval vm_compute in
  match atomic_deploy toy_net toy_params (Token ∅ ∅) 5 with Some n => n | None => Network toy_v0 toy_world end.
Lemma toy_net_start : net_start toy_net 5 toy_net0.
Proof.
  constructor.
  - constructor.
    + cbn. lia.
    + apply NoDup_ListNoDup. repeat constructor; cbn; lia.
    + intros o n f. cbn [toy_net ne_create2 ne_staking ne_vapp ne_iprove ne_governor In].
      assert (n mod 2 ^ 64 < 2 ^ 64) by (apply N.mod_lt; discriminate).
      unfold is_address, prover1. destruct (n =? 1); split; lia.
  - lia.
  - exists toy_params, (Token ∅ ∅). split; [|vm_compute; reflexivity].
    intros a b _. unfold tk_allowance. cbn [tk_allowances]. now rewrite lookup_empty.
Qed.

(** ** A log *)

Definition batch_n1 : list tx := [tx_create 1 100 0 prover1 owner1 1000; tx_deposit 2 101 1 alice 1000].
Definition world_n1 : full_state := (run_txs toy_env batch_n1 world0).2.
(** Alice pays the prover, and anyone may withdraw for the prover. *)
Definition batch_n2 : list tx :=
  [tx_deposit 3 102 1 bob 77; tx_transfer alice 1 prover1 300 0; tx_withdraw mallory 1 prover1 100 0].
Definition input_n1 : stf_input := Eval vm_compute in honest_input toy_env world0 batch_n1 1000.
Definition input_n2 : stf_input := Eval vm_compute in honest_input toy_env world_n1 batch_n2 1005.
Definition step_n1 : step_pv := Eval vm_compute in default (StepPv 0 0 0 []) (step_of toy_env [input_n1]).
Definition step_n2 : step_pv := Eval vm_compute in default (StepPv 0 0 0 []) (step_of toy_env [input_n2]).
Definition net_calls1 : list (net_ctx * net_call * list stf_input) :=
  [ (net_ctx_at alice 10, CWorld (WToken (OMint alice 3000)), []);
    (net_ctx_at bob 10, CWorld (WToken (OMint bob 100)), []);
    (net_ctx_at alice 11, CWorld (WToken (OApprove alice 5000 1000)), []);
    (net_ctx_at alice 11, CWorld (WToken (OApprove alice 5002 500)), []);
    (net_ctx_at bob 11, CWorld (WToken (OApprove bob 5000 77)), []);
    (net_ctx_at owner1 20, CWorld (WStaking (KCreateProver 1000)), []);
    (net_ctx_at alice 21, CVApp (CDeposit 1000), []);
    (net_ctx_at alice 22, CWorld (WStaking (KStake prover1 500)), []);
    (net_ctx_at auctioneer1 1001, CVApp (CStep (abi_step step_n1) [7]), [input_n1]);
    (net_ctx_at bob 1002, CVApp (CDeposit 77), []) ].
Definition net_calls2 : list (net_ctx * net_call * list stf_input) :=
  [ (net_ctx_at auctioneer1 1010, CVApp (CStep (abi_step step_n2) [7]), [input_n2]);
    (net_ctx_at owner1 1011, CWorld (WStaking (KRequestSlash prover1 10)), []) ].
Definition net_after (l : list (net_ctx * net_call * list stf_input)) : list net_entry * network * N :=
  match net_exec toy_net l [] toy_net0 5 with Some r => r | None => ([], toy_net0, 5) end.
Lemma toy_net_run l : net_run toy_net 5 toy_net0 (net_after l).1.1 (net_after l).1.2 (net_after l).2.
Proof.
  unfold net_after. destruct (net_exec toy_net l [] toy_net0 5) as [[[log n] now]|] eqn:E.
  - eapply net_exec_ok; [exact (nr_start _ _ _ toy_net_start)|exact E].
  - exact (nr_start _ _ _ toy_net_start).
Qed.
Definition net_run1 := net_after net_calls1.
Definition net_log (r : list net_entry * network * N) : list net_entry := r.1.1.
Definition net_of (r : list net_entry * network * N) : network := r.1.2.
Definition net_time (r : list net_entry * network * N) : N := r.2.
Definition net_then (r : list net_entry * network * N) l : list net_entry * network * N :=
  match net_exec toy_net l [] (net_of r) (net_time r) with Some r' => r' | None => ([], net_of r, net_time r) end.
Definition net_join (r r' : list net_entry * network * N) : list net_entry * network * N :=
  (net_log r ++ net_log r', net_of r', net_time r').
Lemma net_join_log r r' : net_log (net_join r r') = net_log r ++ net_log r'.
Proof. reflexivity. Qed.
Lemma toy_net_then r l : net_run toy_net 5 toy_net0 (net_log r) (net_of r) (net_time r) ->
  net_run toy_net 5 toy_net0 (net_log (net_join r (net_then r l))) (net_of (net_join r (net_then r l)))
    (net_time (net_join r (net_then r l))).
Proof.
  intros H. unfold net_join, net_then. destruct (net_exec toy_net l [] (net_of r) (net_time r)) as [[[m n] t]|] eqn:E.
  - eapply net_exec_ok; [exact H|]. rewrite net_exec_log, E. reflexivity.
  - cbn. rewrite app_nil_r. exact H.
Qed.
Definition net_tail := net_then net_run1 net_calls2.
Definition net_run2 := net_join net_run1 net_tail.
Definition net_outcomes (l : list net_entry) : list (option net_error) :=
  map (fun e => match e with NAccepted _ _ _ _ => None | NReverted _ _ e => Some e end) l.

Lemma is_net_run1 : net_run toy_net 5 toy_net0 (net_log net_run1) (net_of net_run1) (net_time net_run1).
Proof. apply toy_net_run. Qed.
Lemma is_net_run2 : net_run toy_net 5 toy_net0 (net_log net_run2) (net_of net_run2) (net_time net_run2).
Proof. unfold net_run2, net_tail. apply toy_net_then. exact is_net_run1. Qed.

(** The first run has sound proofs and no forks. *)
Definition proofs_soundb (e : l1_entry) : bool :=
  match e with
  | LAccepted _ (CStep b _) inputs =>
      match step_of toy_env inputs with
      | Some p => bytes_eqb (abi_step p) b && (N.of_nat (length (abi_step p)) <? 2 ^ 256)
      | None => false
      end
  | _ => true
  end.
Lemma proofs_soundb_ok e : proofs_soundb e = true -> proofs_sound toy_env toy_hash (fun _ => true) e.
Proof.
  destruct e as [x c inputs| |]; try (intros; exact I). destruct c; try (intros; exact I). cbn [proofs_soundb proofs_sound].
  destruct (step_of toy_env inputs) as [p|] eqn:E; [|discriminate]. rewrite andb_true_iff, N.ltb_lt. intros [H1 H2].
  apply bytes_eqb_eq in H1. subst. now apply step_of_made.
Qed.
Definition no_forkb (e : l1_entry) : bool := match e with LAccepted _ (CFork _ _) _ => false | _ => true end.
Lemma no_forkb_ok e : no_forkb e = true -> no_fork e.
Proof. destruct e as [x c i| |]; try (intros; exact I). destruct c; try (intros; exact I). discriminate. Qed.
Definition keeps_stakingb (e : net_entry) : bool :=
  match e with
  | NAccepted _ (CVApp (CAdmin (AUpdateStaking _))) _ _ => false
  | NAccepted _ (CWorld (WExecute actions _ _)) _ _ =>
      forallb (fun a => match a with GaVApp (CAdmin (AUpdateStaking _)) => false | _ => true end) actions
  | _ => true
  end.
Lemma keeps_stakingb_ok e : keeps_stakingb e = true -> keeps_staking e.
Proof.
  destruct e as [x c i n'|]; try (intros; exact I). destruct c as [c|c]; destruct c; try (intros; exact I).
  - destruct c; try (intros; exact I). discriminate.
  - cbn. apply forallb_all. intros [c|m|m|m|m|o|c|m]; try (intros; exact I). destruct c; try (intros; exact I).
    destruct c; try (intros; exact I). discriminate.
Qed.
Lemma toy_genesis : va_root (nw_vapp toy_net0) = full_root toy_env (full_new toy_env toy_domain).
Proof. vm_compute. reflexivity. Qed.
Lemma toy_sound log n now : net_run toy_net 5 toy_net0 log n now ->
  forallb (fun e => typed_entryb e && no_forkb e && proofs_soundb e) (settlement toy_net log) = true ->
  sound_run toy_env toy_hash (fun _ => true) toy_domain toy_net 5 toy_net0 log n now.
Proof.
  intros Hr Hf. assert (Hall : forall (P : l1_entry -> bool) (Q : l1_entry -> Prop), (forall e, P e = true -> Q e) ->
    (forall e, typed_entryb e && no_forkb e && proofs_soundb e = true -> P e = true) -> Forall Q (settlement toy_net log)).
  { intros P Q HPQ HP. revert Hf. apply forallb_all. auto. }
  constructor.
  - exact toy_env_ok.
  - destruct toy_l1_ok as [H1 H2]. constructor; assumption.
  - apply wordb_ok. reflexivity.
  - exact Hr.
  - exact toy_genesis.
  - apply (Hall typed_entryb); [exact typed_entryb_ok|]. intros e. rewrite !andb_true_iff. tauto.
  - apply (Hall no_forkb); [exact no_forkb_ok|]. intros e. rewrite !andb_true_iff. tauto.
  - apply (Hall proofs_soundb); [exact proofs_soundb_ok|]. intros e. rewrite !andb_true_iff. tauto.
Qed.
Lemma toy_sound1 : sound_run toy_env toy_hash (fun _ => true) toy_domain toy_net 5 toy_net0
  (net_log net_run1) (net_of net_run1) (net_time net_run1).
Proof. apply toy_sound; [exact is_net_run1|]. vm_compute. reflexivity. Qed.
Lemma toy_keeps2 : Forall keeps_staking (net_log net_run2).
Proof. apply (forallb_all keeps_stakingb); [exact keeps_stakingb_ok|]. vm_compute. reflexivity. Qed.
Lemma toy_keeps1 : Forall keeps_staking (net_log net_run1).
Proof. pose proof toy_keeps2 as H. unfold net_run2 in H. rewrite net_join_log in H. now apply Forall_app in H as [H _]. Qed.

Definition createsb (p owner bips : N) (e : net_entry) : bool :=
  match e with
  | NAccepted x (CWorld (WStaking (KCreateProver b))) _ after =>
      (nx_sender x =? owner) && (b =? bips) && (prover_of after owner =? p)
  | _ => false
  end.
Lemma toy_creates1 : Exists (creates prover1 owner1 1000) (net_log net_run1).
Proof.
  assert (H : existsb (createsb prover1 owner1 1000) (net_log net_run1) = true) by (vm_compute; reflexivity).
  apply existsb_exists in H as (e & Hin & He). apply Exists_exists. exists e.
  split; [apply elem_of_list_In, Hin|].
  destruct e as [x c i a|x c e0]; [|discriminate He]. destruct c as [|w]; try discriminate He.
  destruct w as [k| | | | | |]; try discriminate He. destruct k; try discriminate He. cbn in He.
  apply andb_true_iff in He as [He H3]. apply andb_true_iff in He as [H1 H2].
  apply N.eqb_eq in H1, H2, H3. repeat split; assumption.
Qed.

(** The second step as a call that may be made after the first run. *)
Definition net_step2 : net_ctx := net_ctx_at auctioneer1 1010.
Lemma is_net_run_later : net_run toy_net 5 toy_net0 (net_log net_run1) (net_of net_run1) 1010.
Proof. eapply nr_wait; [exact is_net_run1| |reflexivity]. vm_compute. discriminate. Qed.
Lemma toy_sound_later : sound_run toy_env toy_hash (fun _ => true) toy_domain toy_net 5 toy_net0
  (net_log net_run1) (net_of net_run1) 1010.
Proof. destruct toy_sound1. constructor; try assumption. exact is_net_run_later. Qed.
Lemma hash_prefix E s log log' : collision_free (keccak E) (log_strings E s (log ++ log')) ->
  collision_free (keccak E) (log_strings E s log).
Proof. rewrite log_strings_app. intros H. exact (proj1 (collision_free_app _ _ _ H)). Qed.
Lemma toy_hash2 : collision_free (keccak toy_env) (log_strings toy_env (full_new toy_env toy_domain)
  (settlement toy_net (net_log net_run1) ++
   [LAccepted (seen_by_settlement toy_net net_step2 (net_of net_run1)) (CStep (abi_step step_n2) [7]) [input_n2]])).
Proof. apply collision_freeb_ok. vm_compute. reflexivity. Qed.
Lemma toy_hash1 : collision_free (keccak toy_env)
  (log_strings toy_env (full_new toy_env toy_domain) (settlement toy_net (net_log net_run1))).
Proof.
  exact (hash_prefix toy_env (full_new toy_env toy_domain) (settlement toy_net (net_log net_run1))
    [LAccepted (seen_by_settlement toy_net net_step2 (net_of net_run1)) (CStep (abi_step step_n2) [7]) [input_n2]] toy_hash2).
Qed.
Lemma toy_made2 : made_from toy_env toy_hash (fun _ => true) [input_n2] (abi_step step_n2).
Proof. apply step_of_made; [vm_compute; reflexivity|]. apply N.ltb_lt. vm_compute. reflexivity. Qed.
Lemma toy_allowed2 : step_allowed (net_l1 toy_net) (seen_by_settlement toy_net net_step2 (net_of net_run1)) (abi_step step_n2) [7] step_n2
  (nw_vapp (net_of net_run1)).
Proof. apply step_allowedb_ok; vm_compute; reflexivity. Qed.
Lemma toy_copied2 : Forall (from_queue (created (settlement toy_net (net_log net_run1)))) (all_txs [input_n2]).
Proof. repeat constructor. exists 2%nat. split; vm_compute; reflexivity. Qed.
