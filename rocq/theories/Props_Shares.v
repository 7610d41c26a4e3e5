(** Properties of the receipt tokens $iPROVE, $PROVER-N and $stPROVE.  The vocabulary is in [SharesSpec.v] and
    [StakingSpec.v]; [sys_run K log y] says that staking contract and tokens reached [y] from the deployment by
    the calls of [log], made by anyone, of the staking contract or of any of the tokens. *)
From Verif Require Import Proofs_Shares.
From Coq Require Import Lia ZifyBool ZifyN ZifyNat.
Open Scope N_scope.

(** ** C69: receipt tokens move only by staking *)

(** A call of a receipt token by anyone who is not one of the contracts either reverts, or sets the one
    allowance that it names, by its caller or by who signed it.  It moves, mints and burns nothing. *)
Theorem C69_only_allowances K y a t c y' :
  forall (Hcaller : bystander K y a) (Haccepted : share_run K a t c y = Ok y'),
  sy_staking y' = sy_staking y /\
  exists owner spender n,
    (c = ShApprove spender n /\ owner = a \/ t = ShIprove /\ c = ShPermit owner spender n true) /\
    granted y' t owner spender = n /\
    (forall t' o sp, (t', o, sp) <> (t, owner, spender) -> granted y' t' o sp = granted y t' o sp).
Proof. exact (C69_only_allowances_proof K y a t c y'). Qed.
Print Assumptions C69_only_allowances.

(** So whatever is done with the receipt tokens, the staking contract goes through exactly the states that it
    goes through without. *)
Theorem C69_staking_undisturbed K log y :
  forall (Hrun : sys_run K log y), stk_run K (staking_part log) (sy_staking y).
Proof. exact (C69_staking_undisturbed_proof K log y). Qed.
Print Assumptions C69_staking_undisturbed.

(** The checks of the tokens never stand in the way of the staking contract: its calls of the vaults do what
    the operations on the balances do. *)
Theorem C69_vaults_serve_staking K log y p :
  forall (Hrun : sys_run K log y) (Hprover : p ∈ rg_provers (sk_registry (sy_staking y))),
  (forall n, share_run K (ke_self K) ShIprove (ShDeposit n (ke_self K)) y
     = lifted y (i_deposit K (ke_self K) (ke_self K) n (sy_bank y))) /\
  (forall n receiver, share_run K (ke_self K) ShIprove (ShRedeem n receiver (ke_self K)) y
     = lifted y (i_redeem K n receiver (ke_self K) (sy_bank y))) /\
  (forall from n, share_run K (ke_self K) ShIprove (ShBurn from n) y = lifted y (i_slash K from n (sy_bank y))) /\
  (forall n, share_run K (ke_self K) (ShProver p) (ShDeposit n (ke_self K)) y = lifted y (v_deposit K p n (sy_bank y))) /\
  (forall n, share_run K (ke_self K) (ShProver p) (ShRedeem n (ke_self K) (ke_self K)) y
     = lifted y (v_redeem K p n (sy_bank y))).
Proof. exact (C69_vaults_serve_staking_proof K log y p). Qed.
Print Assumptions C69_vaults_serve_staking.

(** A deposit by the settlement contract is accepted exactly as a reward of a registered prover. *)
Theorem C69_reward_is_deposit K log y p n y' :
  forall (Hrun : sys_run K log y) (Hvapp : ke_vapp K ∉ rg_provers (sk_registry (sy_staking y))),
  share_run K (ke_vapp K) ShIprove (ShDeposit n p) y = Ok y' <->
  exists x evs, system_run K x (KReward p n) y = Ok (y', evs).
Proof. exact (C69_reward_is_deposit_proof K log y p n y'). Qed.
Print Assumptions C69_reward_is_deposit.

(** Bob gives Carol allowances, but neither can move anything with them or by way of the vaults. *)
Example C69_example :
  sys_run toy_sk toy_sys.1 toy_sys.2 /\
  bystander toy_sk toy_sys.2 sk_bob /\
  drop 9 toy_sys.1 =
    [ YShares sk_bob ShStprove (ShApprove sk_carol 500) true;
      YShares sk_carol ShStprove (ShTransferFrom sk_bob sk_carol 100) false;
      YShares sk_bob ShIprove (ShPermit sk_bob sk_carol 30 true) true;
      YShares sk_carol ShIprove (ShDeposit 5 sk_carol) false;
      YShares sk_bob (ShProver toy_prover) (ShRedeem 0 sk_bob sk_bob) false;
      YShares sk_bob (ShProver toy_prover) (ShPull sk_alice 10) false ] /\
  (exists y', share_run toy_sk sk_bob ShIprove (ShApprove sk_alice 7) toy_sys.2 = Ok y') /\
  toy_prover ∈ rg_provers (sk_registry (sy_staking toy_sys.2)) /\
  ke_vapp toy_sk ∉ rg_provers (sk_registry (sy_staking toy_sys.2)) /\
  (exists y', share_run toy_sk (ke_vapp toy_sk) ShIprove (ShDeposit 100 toy_prover) toy_sys.2 = Ok y') /\
  staked toy_sk sk_bob (sy_staking toy_sys.2) = Ok 566.
Proof. exact C69_example_proof. Qed.
