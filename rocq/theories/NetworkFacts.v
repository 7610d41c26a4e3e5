(** The contracts together: each side sees a run of its own. *)
From Verif Require Export NetworkSpec.
From Verif Require Import StakingUnstake GovernorFacts GovernorRun L1Facts L1Solvent L1Live.
From Coq Require Import Lia ZifyBool ZifyN ZifyNat.
Open Scope N_scope.

(** ** Calls of the token *)

Inductive token_path (P : token_op -> Prop) : token -> token -> Prop :=
| tp_nil t : token_path P t t
| tp_step t o t1 t' : P o -> run_token_op t o = Ok t1 -> token_path P t1 t' -> token_path P t t'.

Lemma path_trans P t t1 t' : token_path P t t1 -> token_path P t1 t' -> token_path P t t'.
Proof. induction 1; intros H2; [exact H2|]. eapply tp_step; eauto. Qed.
Lemma path_one (P : token_op -> Prop) t o t' : P o -> run_token_op t o = Ok t' -> token_path P t t'.
Proof. intros. eapply tp_step; [eassumption|eassumption|constructor]. Qed.

(** Calls of the token that the settlement contract has nothing to do with. *)
Definition foreign (Y : net_env) (o : token_op) : Prop := own_actions (net_l1 Y) (LToken o).

Section Paths.
Context (Y : net_env) (Ha : net_addresses_ok Y).
Let K := net_staking Y.
Let prove (b : bank) := bk_prove b.

Lemma addresses_differ : ne_staking Y <> ne_vapp Y /\ ne_staking Y <> ne_iprove Y /\ ne_staking Y <> ne_governor Y /\
  ne_vapp Y <> ne_iprove Y /\ ne_vapp Y <> ne_governor Y /\ ne_iprove Y <> ne_governor Y /\
  ne_staking Y <> 0 /\ ne_vapp Y <> 0 /\ ne_iprove Y <> 0 /\ ne_governor Y <> 0.
Proof using Ha.
  destruct Ha as [Hz Hd _]. apply NoDup_cons in Hd as [H1 Hd]. apply NoDup_cons in Hd as [H2 Hd].
  apply NoDup_cons in Hd as [H3 _]. rewrite !elem_of_cons, elem_of_nil in *. cbn [In] in Hz. intuition congruence.
Qed.

Lemma redeem_path sh r o b b' a : i_redeem K sh r o b = Ok (b', a) -> token_path (foreign Y) (bk_prove b) (bk_prove b').
Proof using Ha.
  intros H. apply i_redeem_ok in H as (H & _). eapply path_one with (o := OTransfer (ne_iprove Y) r a); [|exact H].
  pose proof addresses_differ. unfold foreign. cbn. intuition congruence.
Qed.

Lemma pay_path a p done pool b evs pool' b' :
  pay_run K a p done pool b evs pool' b' -> token_path (foreign Y) (bk_prove b) (bk_prove b').
Proof using Ha.
  induction 1 as [|c rest pool b pool1 b1 n ev evs pool' b' Hf _ IH]; [constructor|].
  apply finish_request_ok in Hf as (_ & _ & _ & _ & [(_ & -> & _)|Hr]); [exact IH|].
  eapply path_trans; [eapply redeem_path; exact Hr|exact IH].
Qed.

Lemma stake_for_path a p n s s' evs : stake_for K a p n s = Ok (s', evs) ->
  token_path (foreign Y) (bk_prove (sk_bank s)) (bk_prove (sk_bank s')).
Proof using Ha.
  intros H. apply stake_for_ok in H as (_ & _ & _ & _ & _ & i & sh & b1 & b2 & Hi & _ & Hv & _ & _ & _ & -> & _).
  apply i_deposit_ok in Hi as (t & Ht & Hb1 & _). apply v_deposit_ok in Hv as (_ & _ & _ & Hb2).
  assert (bk_prove b2 = bk_prove b1) as E2 by intuition congruence.
  eapply path_one with (o := OTransferFrom (ne_iprove Y) (ne_staking Y) (ne_iprove Y) n).
  - pose proof addresses_differ. unfold foreign. cbn. intuition congruence.
  - cbn [run_token_op]. destruct (_ =? 0); cbn; rewrite E2, Hb1; exact Ht.
Qed.

Lemma slash_path o n b b' a : slash_if_nonzero K o n b = Ok (b', a) ->
  token_path (foreign Y) (bk_prove b) (bk_prove b').
Proof using Ha.
  unfold slash_if_nonzero. destruct (n =? 0); [intros [= <- <-]; constructor|]. intros H. apply i_slash_ok in H as (H & _).
  eapply path_one with (o := OBurn (ne_iprove Y) a); [|exact H].
  pose proof addresses_differ. unfold foreign. cbn. intuition congruence.
Qed.

Lemma deactivate_bank p s s' : deactivate_if_below_min p s = Ok s' -> sk_bank s' = sk_bank s.
Proof using. intros H. apply deactivate_ok in H as (d & ->). reflexivity. Qed.

(** A call of the staking contract, other than a reward, calls the token only in ways the settlement contract has
    nothing to do with. *)
Lemma staking_path x c s s' evs :
  match c with KReward _ _ => False | _ => True end -> permits_signed Y c ->
  staking_run K x c s = Ok (s', evs) -> token_path (foreign Y) (bk_prove (sk_bank s)) (bk_prove (sk_bank s')).
Proof using Ha.
  intros Hc Hp H. pose proof addresses_differ as Hd.
  destruct c; cbn [staking_run] in H; cbn in Hc, Hp; try contradiction.
  - apply stake_call_ok in H as (t & _ & Ht & H). apply stake_for_path in H.
    eapply path_trans; [|exact H]. eapply path_one with (o := OTransferFrom (ne_staking Y) _ _ _); [|exact Ht].
    unfold foreign. cbn. intuition congruence.
  - apply permit_stake_ok in H as (t1 & t & _ & Ht1 & Ht & H). apply stake_for_path in H. destruct Hp as (_ & _ & Hv).
    eapply path_trans; [|exact H].
    eapply path_trans with (t1 := t1).
    + destruct Ht1 as [-> | ->]; [constructor|]. eapply path_one with (o := OApprove _ _ _); [|reflexivity]. exact Hv.
    + eapply path_one with (o := OTransferFrom _ _ _ _); [|exact Ht]. unfold foreign. cbn. congruence.
  - apply request_unstake_ok in H as (_ & _ & _ & _ & _ & b2 & e & H & -> & _). apply v_redeem_ok in H as (_ & _ & _ & _ & H).
    cbn. replace (bk_prove b2) with (bk_prove (sk_bank s)) by (destruct H as [H _]; cbn in H; congruence). constructor.
  - apply finish_unstake_ok in H. cbv zeta in H.
    destruct H as (_ & _ & _ & done & left & pool & b & H & _ & _ & _ & ->). apply pay_path in H.
    destruct (_ && (length left =? 0)%nat); cbn; exact H.
  - apply request_slash_ok in H as (_ & _ & _ & _ & -> & _). constructor.
  - apply cancel_slash_ok in H as (c & _ & _ & _ & _ & -> & _). constructor.
  - unfold k_finish_slash in H. sk_inv.
    match goal with H : (if ?b then _ else _) = Ok _ |- _ => destruct b; sk_inv end; subst;
      match goal with H : deactivate_if_below_min _ _ = Ok _ |- _ => apply deactivate_bank in H; rewrite H end;
      [constructor|].
    repeat match goal with H : slash_if_nonzero _ _ _ _ = Ok _ |- _ => apply slash_path in H end.
    cbn in *. eapply path_trans; eassumption.
  - apply dispense_ok in H as (av & t & _ & _ & _ & _ & Ht & -> & _). cbn.
    eapply path_one with (o := OTransfer (ne_staking Y) (ne_iprove Y) _); [|exact Ht]. unfold foreign. cbn. intuition congruence.
  - unfold k_set_dispenser in H. sk_inv. subst. constructor.
  - unfold k_update_rate in H. sk_inv. subst. constructor.
  - apply create_prover_ok in H as (d & m & _ & _ & ->). constructor.
  - unfold k_transfer_ownership in H. sk_inv. subst. constructor.
  - unfold k_renounce_ownership in H. sk_inv. subst. constructor.
Qed.

Lemma step_path x c w w' :
  match c with KReward _ _ => False | _ => True end -> permits_signed Y c ->
  staking_step (net_gov Y) x c w = Ok w' -> token_path (foreign Y) (prove_of w) (prove_of w').
Proof using Ha.
  intros Hc Hp H. unfold staking_step in H. destruct (staking_run _ _ _ _) as [[s evs]|] eqn:Es; [|discriminate].
  gov_inv. unfold prove_of. cbn. eapply staking_path; eassumption.
Qed.

Lemma token_step_path o w w' : foreign Y o -> token_step o w = Ok w' -> token_path (foreign Y) (prove_of w) (prove_of w').
Proof using.
  intros Ho H. unfold token_step in H. destruct (run_token_op _ _) as [t|] eqn:Et; [|discriminate]. gov_inv.
  eapply path_one; [exact Ho|exact Et].
Qed.

Lemma action_path x others a w w' :
  match a with GaStaking c => permits_signed Y c | _ => True end ->
  run_action (net_gov Y) x others a w = Ok w' -> token_path (foreign Y) (prove_of w) (prove_of w').
Proof using Ha.
  intros Hp H. destruct a as [c| | | | |o| |]; cbn [run_action] in H.
  - set (x' := StakingCtx _ _ _ _ _ _) in H.
    assert (match c with KReward _ _ => False | _ => True end /\ staking_step (net_gov Y) x' c w = Ok w') as [Hc Hs]
      by (destruct c; split; try exact H; try exact I; discriminate).
    eapply step_path; eassumption.
  - gov_inv. constructor.
  - gov_inv. constructor.
  - gov_inv. constructor.
  - gov_inv. constructor.
  - gov_inv. eapply token_step_path; [|exact H]. pose proof addresses_differ.
    destruct o; cbn in Heqb; try discriminate; apply N.eqb_eq in Heqb; unfold foreign; cbn; cbn in Heqb; intuition congruence.
  - gov_inv. constructor.
  - gov_inv. constructor.
Qed.

Lemma actions_path x others l : forall w w',
  Forall (fun a => match a with GaStaking c => permits_signed Y c | _ => True end) l ->
  run_actions (net_gov Y) x others l w = Ok w' -> token_path (foreign Y) (prove_of w) (prove_of w').
Proof using Ha.
  induction l as [|a l IH]; intros w w' Hf H; cbn [run_actions] in H; [gov_inv; constructor|].
  apply Forall_cons in Hf as [Hp Hf]. gov_inv. eapply path_trans; [eapply action_path; eassumption|eapply IH; eassumption].
Qed.

Lemma world_path n x y c w w' :
  net_by_anyone Y n x (CWorld c) -> match c with WStaking (KReward _ _) => False | _ => True end ->
  world_run (net_gov Y) y c w = Ok w' -> token_path (foreign Y) (prove_of w) (prove_of w').
Proof using Ha.
  intros [_ Hby] Hc H. destruct c as [c|o|d|via l d|via l d|via i f|l d others]; cbn [world_run] in H.
  - eapply step_path; [|exact Hby|exact H]. now destruct c.
  - eapply token_step_path; [|exact H]. pose proof addresses_differ.
    destruct o; cbn in Hby; unfold signs in Hby; unfold foreign; cbn; intuition congruence.
  - gov_inv. constructor.
  - gov_inv. unfold propose in H. gov_inv. constructor.
  - gov_inv. unfold cancel_proposal in H. gov_inv. constructor.
  - gov_inv. unfold cast_vote in H. gov_inv. constructor.
  - unfold execute_proposal in H. gov_inv. apply actions_path in H; [|exact Hby]. exact H.
Qed.
End Paths.

(** ** Executed proposals *)

Lemma executed Y x l d others n n' : net_execute Y x l d others n = Ok n' ->
  existsb creates_prover l = false /\ vapp_actions Y x l (nw_vapp n) = Ok (nw_vapp n') /\
  world_run (net_gov Y) (world_ctx (nx_sender x) x true) (WExecute l d others) (nw_world n) = Ok (nw_world n').
Proof.
  unfold net_execute. destruct (existsb creates_prover l); [discriminate|]. cbv zeta. intros H. split; [reflexivity|].
  destruct (vapp_actions Y x l (nw_vapp n)) as [v|]; [|destruct (on_world _ _ _ _); discriminate].
  unfold on_world in H. destruct (world_run _ _ _ _) as [w|]; [|discriminate]. cbn in H. injection H as <-. auto.
Qed.

(** ** The registry *)

(** Only [createProver] changes who is a prover of whom. *)
Inductive registry_change (K : staking_env) (c : staking_call) (who : N) (s s' : staking) : Prop :=
| rc_same : rg_provers (sk_registry s') = rg_provers (sk_registry s) ->
    rg_owners (sk_registry s') = rg_owners (sk_registry s) -> rg_count (sk_registry s') = rg_count (sk_registry s) ->
    match c with KCreateProver _ => False | _ => True end ->
    registry_change K c who s s'
| rc_new bips m : c = KCreateProver bips -> bips <= 10000 -> default 0 (rg_owners (sk_registry s) !! who) = 0 ->
    m = (rg_count (sk_registry s) + 1) mod two256 ->
    ~ ke_create2 K who m bips ∈ rg_provers (sk_registry s) ->
    s' = sk_set_registry (Registry ({[ke_create2 K who m bips]} ∪ rg_provers (sk_registry s))
           (rg_deactivated (sk_registry s)) (<[who := ke_create2 K who m bips]> (rg_owners (sk_registry s))) m) s ->
    registry_change K c who s s'.

Lemma registry_step K x c s s' evs : staking_run K x c s = Ok (s', evs) -> registry_change K c (kx_sender x) s s'.
Proof.
  intros H. destruct c; cbn [staking_run] in H; try (apply rc_same; [..|exact I]).
  all: try (apply stake_call_ok in H as (t & _ & _ & H); apply stake_for_ok in H as (_ & _ & _ & _ & _ & ? & ? & ? & ? & _ & _ & _ & _ & _ & _ & -> & _);
    sk_simpl; now destruct (_ =? 0)).
  all: try (apply permit_stake_ok in H as (t1 & t & _ & _ & _ & H); apply stake_for_ok in H as (_ & _ & _ & _ & _ & ? & ? & ? & ? & _ & _ & _ & _ & _ & _ & -> & _);
    sk_simpl; now destruct (_ =? 0)).
  all: try (apply request_unstake_ok in H; cbv zeta in H; destruct H as (_ & _ & _ & _ & _ & b2 & e & _ & -> & _); reflexivity).
  all: try (apply finish_unstake_ok in H; cbv zeta in H;
    destruct H as (_ & _ & _ & done & left & pool & b & _ & _ & _ & _ & ->); now destruct (_ && (length left =? 0)%nat)).
  all: try (apply request_slash_ok in H as (_ & _ & _ & _ & -> & _); reflexivity).
  all: try (apply cancel_slash_ok in H as (c & _ & _ & _ & _ & -> & _); reflexivity).
  all: try (apply finish_slash_ok in H; cbv zeta in H; destruct H as (c & d & burned & _ & _ & _ & _ & _ & H);
    destruct H as [[_ ->]|(b1 & b2 & f & _ & _ & _ & _ & ->)]; reflexivity).
  all: try (apply dispense_ok in H as (av & t & _ & _ & _ & _ & _ & -> & _); reflexivity).
  all: try (apply reward_ok in H as (_ & _ & b & sh & _ & ->); reflexivity).
  all: try (unfold k_set_dispenser, k_update_rate, k_transfer_ownership, k_renounce_ownership in H; sk_inv; subst; reflexivity).
  unfold k_create_prover in H. cbv zeta in H. sk_inv. subst.
  match goal with H : is_prover _ _ = false |- _ => unfold is_prover in H; apply bool_decide_eq_false in H end.
  eapply rc_new; [reflexivity|lia|lia|reflexivity|eassumption|reflexivity].
Qed.
