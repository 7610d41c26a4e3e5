(** Only owners change the rules of the deployed contracts. *)
From Verif Require Import StakingUnstake StakingRights GovernorFacts.
From Verif Require Export Proofs_Network RulesSpec.
From Coq Require Import Lia ZifyBool ZifyN ZifyNat.
Open Scope N_scope.

(** Induction over what follows a log. *)
Lemma net_more_ind Y t0 n0 log n now (P : list net_entry -> network -> Prop) :
  net_run Y t0 n0 log n now -> P [] n ->
  (forall l n1 x c i n2, P l n1 -> net_by_anyone Y n1 x c -> net_run_call Y x c n1 = Ok n2 -> P (l ++ [NAccepted x c i n2]) n2) ->
  (forall l n1 x c e, P l n1 -> P (l ++ [NReverted x c e]) n1) ->
  forall l n' now', net_run Y t0 n0 (log ++ l) n' now' -> P l n'.
Proof.
  intros Hn P0 P1 P2 l n' now' H. remember (log ++ l) as log2 eqn:Heq. revert l Heq.
  induction H as [Hs|log2 m t t' H IH H1 H2|log2 m t x c i m' H IH Ht Hb Hr|log2 m t x c e H IH Ht Hb Hr]; intros l Heq.
  - symmetry in Heq. apply app_eq_nil in Heq as [-> ->]. apply net_state in Hn as ->. exact P0.
  - apply IH. exact Heq.
  - destruct l as [|e l _] using rev_ind.
    + rewrite app_nil_r in Heq. subst log. apply net_state in Hn as ->. unfold net_last in P0. rewrite fold_left_app in P0. exact P0.
    + rewrite app_assoc in Heq. apply app_inj_tail in Heq as [Heq <-]. eapply P1; [apply IH; exact Heq|exact Hb|exact Hr].
  - destruct l as [|e0 l _] using rev_ind.
    + rewrite app_nil_r in Heq. subst log. apply net_state in Hn as ->. unfold net_last in P0. rewrite fold_left_app in P0.
      apply net_state in H. unfold net_last in H. cbn in P0. rewrite <- H in P0. exact P0.
    + rewrite app_assoc in Heq. apply app_inj_tail in Heq as [Heq <-]. apply P2, IH, Heq.
Qed.

(** ** The settlement contract *)

Lemma vapp_of_settings n : settings (vapp_of n) = settings (nw_vapp n).
Proof. reflexivity. Qed.

Lemma created_vapp Y x bips n n' : net_create_prover Y x bips n = Ok n' ->
  settings (nw_vapp n') = settings (nw_vapp n) /\ va_paused (nw_vapp n) = false.
Proof.
  intros H. apply created_prover in H as (H & _). unfold register_prover, l1_create_prover in H. l1_inv.
  unfold create_transaction in H. l1_inv. subst. split; [|assumption || (apply negb_true_iff; assumption)].
  match goal with H : nw_vapp n' = _ |- _ => rewrite H | H : _ = nw_vapp n' |- _ => rewrite <- H end. reflexivity.
Qed.

(** The calls of a proposal. *)
Lemma actions_vapp Y x l : forall v v', vapp_actions Y x l v = Ok v' ->
  v' = v /\ flat_map (governor_entry Y x) l = [] \/
  va_owner v = ne_governor Y /\
  Exists (fun a => match a with GaVApp (CAdmin _) | GaVApp (CFork _ _) => True | _ => False end) l.
Proof.
  induction l as [|a l IH]; intros v v' H; cbn [vapp_actions] in H; [injection H as <-; now left|].
  assert (Ho : match a with GaVApp _ => False | _ => True end -> vapp_actions Y x l v = Ok v' ->
    v' = v /\ flat_map (governor_entry Y x) (a :: l) = [] \/ va_owner v = ne_governor Y /\
    Exists (fun a => match a with GaVApp (CAdmin _) | GaVApp (CFork _ _) => True | _ => False end) (a :: l)).
  { intros Hn Ha. destruct (IH v v' Ha) as [[E1 E2]|[E1 E2]].
    - left. split; [exact E1|]. cbn [flat_map]. rewrite E2. destruct a; try reflexivity. contradiction.
    - right. split; [exact E1|]. apply Exists_cons. now right. }
  destruct a as [c|m|m|m|m|o|c|m]; try (exact (Ho I H)). clear Ho. right.
  destruct c; try discriminate; (destruct (l1_run _ _ _ _) as [v1|] eqn:E1 in H; [|discriminate]; split;
    [|apply Exists_cons; now left]; cbn [l1_run] in E1; unfold l1_fork, l1_admin in E1;
    destruct (l1_require _ _) as [u|] eqn:Er in E1; [|discriminate]; unfold l1_require in Er;
    destruct (_ =? _) eqn:Eq in Er; [|discriminate]; apply N.eqb_eq in Eq; cbn in Eq; now symmetry).
Qed.

(** What an accepted call does to the settlement contract. *)
Lemma call_vapp Y x c i n n' : net_addresses_ok Y -> net_run_call Y x c n = Ok n' ->
  (settings (nw_vapp n') = settings (nw_vapp n) /\ Forall no_fork (settlement_entry Y (NAccepted x c i n')) \/
   sets_rules Y (va_owner (nw_vapp n)) (NAccepted x c i n')) /\
  (va_paused (nw_vapp n) = true -> nw_vapp n' = nw_vapp n /\ settlement_entry Y (NAccepted x c i n') = [] \/
     sets_rules Y (va_owner (nw_vapp n)) (NAccepted x c i n')).
Proof.
  intros Ha H. destruct c as [c|c].
  - apply (vapp_call Y Ha) in H. split.
    + destruct c as [| | | |k r|a]; try (left; split; [|cbn; repeat constructor];
        destruct (decide (settings (vapp_of n') = settings (vapp_of n))) as [He|Hne]; [exact He|];
        destruct (run_settings _ _ _ _ _ H Hne) as [_ [(? & Hx)|(? & ? & Hx)]]; discriminate).
      * right. cbn [l1_run] in H. unfold l1_fork in H. l1_inv. cbn. now apply N.eqb_eq.
      * right. cbn [l1_run] in H. unfold l1_admin in H. l1_inv. cbn. now apply N.eqb_eq.
    + intros Hp. right. destruct (run_paused_owner _ _ _ _ _ H Hp) as [Hs [(a & ->)|(k & r & ->)]]; exact Hs.
  - destruct (match c with WStaking (KCreateProver _) => true | _ => false end) eqn:Ec.
    + destruct c as [[]| | | | | |]; try discriminate. cbn [net_run_call] in H. apply created_vapp in H as [H1 H2].
      split; [left; split; [exact H1|cbn; repeat constructor]|congruence].
    + destruct (match c with WExecute _ _ _ => true | _ => false end) eqn:Ex.
      * destruct c as [| | | | | |l d others]; try discriminate. cbn [net_run_call] in H. apply executed in H as (_ & H & _).
        apply actions_vapp in H as [[E1 E2]|[E1 E2]].
        -- split; [|intros _]; left; (split; [now rewrite E1|]); cbn [settlement_entry]; rewrite E2; constructor.
        -- split; [|intros _]; right; (split; [exact E1|exact E2]).
      * assert (E : nw_vapp n' = nw_vapp n) by (apply (world_vapp Y x c n n' H); destruct c as [[]| | | | | |]; auto; discriminate).
        split; [left; split; [now rewrite E|]|intros _; left; split; [exact E|]];
          destruct c as [[]| | | | | |]; try discriminate; cbn; constructor.
Qed.

Lemma C88_settlement_proof Y t0 n0 log n now log' n' now' :
  forall (Hrun : net_run Y t0 n0 log n now) (Hrun' : net_run Y t0 n0 (log ++ log') n' now'),
  (settings (nw_vapp n') = settings (nw_vapp n) /\ Forall no_fork (settlement Y log')) \/
  Exists (sets_rules Y (va_owner (nw_vapp n))) log'.
Proof.
  intros H H'. pose proof (net_addresses _ _ _ _ _ _ H) as Ha.
  refine (net_more_ind Y t0 n0 log n now (fun l m => (settings (nw_vapp m) = settings (nw_vapp n) /\ Forall no_fork (settlement Y l)) \/
    Exists (sets_rules Y (va_owner (nw_vapp n))) l) H _ _ _ log' n' now' H').
  - left. split; [reflexivity|constructor].
  - intros l n1 x c i n2 IH Hb Hr. destruct IH as [[IH Hnf]|IH]; [|right; apply Exists_app; now left].
    destruct (call_vapp Y x c i n1 n2 Ha Hr) as [[[He Hns]|Hs] _].
    + left. split; [congruence|]. rewrite settlement_app. apply Forall_app. split; [exact Hnf|].
      unfold settlement. cbn [flat_map]. rewrite app_nil_r. exact Hns.
    + right. apply Exists_app. right. apply Exists_cons. left.
      assert (E : va_owner (nw_vapp n1) = va_owner (nw_vapp n)) by (unfold settings in IH; now injection IH).
      now rewrite <- E.
  - intros l n1 x c e [[IH Hnf]|IH]; [left|right; apply Exists_app; now left].
    split; [exact IH|]. rewrite settlement_app. apply Forall_app. split; [exact Hnf|constructor].
Qed.

(** Nobody has the address zero. *)
Lemma nobody_sets Y t0 n0 log n now l n' now' (P : N -> net_entry -> Prop) : net_run Y t0 n0 log n now ->
  (forall x c i m, P 0 (NAccepted x c i m) -> nx_sender x = 0) -> (forall x c e, ~ P 0 (NReverted x c e)) ->
  net_run Y t0 n0 (log ++ l) n' now' -> ~ Exists (P 0) l.
Proof.
  intros H Hz Hr H'. refine (net_more_ind Y t0 n0 log n now (fun l _ => ~ Exists (P 0) l) H _ _ _ l n' now' H').
  - intros E. inversion E.
  - intros l0 n1 x c i n2 IH [(H0 & _) _] _ E. apply Exists_app in E as [E|E]; [exact (IH E)|].
    apply Exists_cons in E as [E|E]; [|inversion E]. apply H0. exact (Hz _ _ _ _ E).
  - intros l0 n1 x c e IH E. apply Exists_app in E as [E|E]; [exact (IH E)|].
    apply Exists_cons in E as [E|E]; [exact (Hr _ _ _ E)|inversion E].
Qed.

Lemma C88_renounced_proof Y t0 n0 log n now log' n' now' :
  forall (Hrun : net_run Y t0 n0 log n now) (Hrun' : net_run Y t0 n0 (log ++ log') n' now')
    (Hrenounced : va_owner (nw_vapp n) = 0),
  settings (nw_vapp n') = settings (nw_vapp n) /\ Forall no_fork (settlement Y log').
Proof.
  intros H H' Ho. destruct (C88_settlement_proof _ _ _ _ _ _ _ _ _ H H') as [C|C]; [exact C|]. rewrite Ho in C. exfalso.
  assert (Hg : ne_governor Y <> 0) by (pose proof (addresses_differ Y (net_addresses _ _ _ _ _ _ H)); intuition congruence).
  refine (nobody_sets Y t0 n0 log n now log' n' now' (sets_rules Y) H _ _ H' C).
  - intros x c i m Hs. destruct c as [[]|[]]; cbn in Hs; try contradiction; try exact Hs. destruct Hs as [Hs _]. congruence.
  - intros x c e Hs. exact Hs.
Qed.

Lemma C88_locked_proof Y t0 n0 log n now log' n' now' :
  forall (Hrun : net_run Y t0 n0 log n now) (Hrun' : net_run Y t0 n0 (log ++ log') n' now')
    (Hrenounced : va_owner (nw_vapp n) = 0) (Hpaused : va_paused (nw_vapp n) = true),
  settlement Y log' = [] /\ nw_vapp n' = nw_vapp n.
Proof.
  intros H H' Ho Hp. pose proof (net_addresses _ _ _ _ _ _ H) as Ha.
  refine (net_more_ind Y t0 n0 log n now (fun l m => settlement Y l = [] /\ nw_vapp m = nw_vapp n) H _ _ _ log' n' now' H').
  - split; reflexivity.
  - intros l n1 x c i n2 [I1 I2] [(H0 & _) _] Hr. destruct (call_vapp Y x c i n1 n2 Ha Hr) as [_ Hc].
    rewrite I2 in Hc. destruct (Hc Hp) as [[E1 E2]|Hs].
    + split; [|congruence]. rewrite settlement_app, I1. unfold settlement. cbn [flat_map]. now rewrite E2.
    + exfalso. rewrite Ho in Hs. assert (Hg : ne_governor Y <> 0) by (pose proof (addresses_differ Y Ha); intuition congruence).
      destruct c as [[]|[]]; cbn in Hs; try contradiction; try (apply H0; exact Hs). destruct Hs as [Hs _]. congruence.
  - intros l n1 x c e [I1 I2]. split; [|exact I2]. rewrite settlement_app, I1. reflexivity.
Qed.

(** ** The staking contract *)

Definition stk_rules (s : staking) : N * N * N := (sk_owner s, dp_dispenser (sk_dispensing s), dp_rate (sk_dispensing s)).

Lemma rules_change K x c s s' evs : staking_run K x c s = Ok (s', evs) ->
  stk_rules s' = stk_rules s \/ sets_staking c = true /\ kx_sender x = sk_owner s.
Proof.
  intros H. unfold stk_rules.
  destruct c; try (apply core_kept in H; [|exact I]; apply core_eq in H as (-> & _ & -> & _); now left); cbn [staking_run] in H.
  - apply request_slash_ok in H as (_ & _ & _ & _ & -> & _). now left.
  - apply cancel_slash_ok in H as (c & _ & _ & _ & _ & -> & _). now left.
  - apply finish_slash_ok in H. cbv zeta in H. destruct H as (c & d & burned & _ & _ & _ & _ & _ & H). left.
    destruct H as [[_ ->]|(b1 & b2 & f & _ & _ & _ & _ & ->)]; reflexivity.
  - apply dispense_ok in H as (av & t & _ & _ & _ & _ & _ & -> & _). now left.
  - right. split; [reflexivity|]. unfold k_set_dispenser in H. sk_inv. now apply N.eqb_eq.
  - right. split; [reflexivity|]. unfold k_update_rate in H. sk_inv. now apply N.eqb_eq.
  - apply create_prover_ok in H as (d & n & _ & _ & ->). now left.
  - right. split; [reflexivity|]. unfold k_transfer_ownership in H. sk_inv. now apply N.eqb_eq.
  - right. split; [reflexivity|]. unfold k_renounce_ownership in H. sk_inv. now apply N.eqb_eq.
Qed.

Lemma step_rules G x c w w' : staking_step G x c w = Ok w' ->
  stk_rules (w_staking w') = stk_rules (w_staking w) \/ sets_staking c = true /\ kx_sender x = sk_owner (w_staking w).
Proof.
  intros H. unfold staking_step in H. destruct (staking_run _ _ _ _) as [[s evs]|] eqn:Es; [|discriminate].
  assert (w_staking w' = s) as -> by (gov_inv; reflexivity). exact (rules_change _ _ _ _ _ _ Es).
Qed.

Lemma token_rules o w w' : token_step o w = Ok w' -> stk_rules (w_staking w') = stk_rules (w_staking w).
Proof. intros H. unfold token_step in H. destruct (run_token_op _ _); [|discriminate]. injection H as <-. reflexivity. Qed.

Lemma actions_rules G x others l : forall w w', run_actions G x others l w = Ok w' ->
  stk_rules (w_staking w') = stk_rules (w_staking w) \/
  sk_owner (w_staking w) = ge_self G /\ Exists (fun a => match a with GaStaking c => sets_staking c = true | _ => False end) l.
Proof.
  induction l as [|a l IH]; intros w w' H; cbn [run_actions] in H; [gov_inv; now left|].
  destruct (run_action G x others a w) as [w1|] eqn:E1; [|discriminate]. cbn [gv_bind] in H.
  assert (Hone : stk_rules (w_staking w1) = stk_rules (w_staking w) \/
    sk_owner (w_staking w) = ge_self G /\ match a with GaStaking c => sets_staking c = true | _ => False end).
  { clear H IH. destruct a as [c| | | | |o| |]; cbn [run_action] in E1; try (gov_inv; now left).
    - set (x' := StakingCtx _ _ _ _ _ _) in E1.
      assert (Hs : staking_step G x' c w = Ok w1) by (destruct c; try exact E1; discriminate).
      destruct (step_rules _ _ _ _ _ Hs) as [E|[E1' E2]]; [now left|right]. split; [now symmetry|exact E1'].
    - gov_inv. left. eapply token_rules. eassumption. }
  destruct Hone as [Hone|[H1 H2]]; [|right; split; [exact H1|apply Exists_cons; now left]].
  destruct (IH w1 w' H) as [E|[E1' E2]]; [left; congruence|right]. split; [|apply Exists_cons; now right].
  unfold stk_rules in Hone. injection Hone. congruence.
Qed.

Lemma world_rules G x c w w' : world_run G x c w = Ok w' ->
  stk_rules (w_staking w') = stk_rules (w_staking w) \/
  match c with
  | WStaking c => sets_staking c = true /\ kx_sender x = sk_owner (w_staking w)
  | WExecute actions _ _ => sk_owner (w_staking w) = ge_self G /\
      Exists (fun a => match a with GaStaking c => sets_staking c = true | _ => False end) actions
  | _ => False
  end.
Proof.
  intros H. destruct c as [c|o|d|via l d|via l d|via i f|l d others]; cbn [world_run] in H.
  - exact (step_rules _ _ _ _ _ H).
  - left. eapply token_rules; exact H.
  - gov_inv. now left.
  - gov_inv. unfold propose in H. gov_inv. now left.
  - gov_inv. unfold cancel_proposal in H. gov_inv. now left.
  - gov_inv. unfold cast_vote in H. gov_inv. now left.
  - unfold execute_proposal in H. gov_inv. apply actions_rules in H. exact H.
Qed.

Lemma receipts_rules Y x rs : forall n n', net_receipts Y x rs n = Ok n' -> staking_rules n' = staking_rules n.
Proof.
  induction rs as [|r rs IH]; intros n n' H; cbn [net_receipts] in H.
  - now injection H as <-.
  - destruct (if negb _ then _ else _) as [n1|] eqn:E1 in H; [|discriminate]. cbn [net_bind] in H.
    rewrite (IH _ _ H). destruct (negb _) in E1.
    + unfold on_vapp in E1. destruct (handle_onchain_receipt _ _); [|discriminate]. now injection E1 as <-.
    + unfold net_offchain_receipt in E1. destruct (sr_status r); try discriminate; [|now injection E1 as <-].
      destruct (sr_variant r); try discriminate. destruct (l1_decode_withdraw _) as [a|]; [|discriminate].
      unfold net_withdraw, on_world in E1. destruct (sees_prover _ _ _ _);
        (destruct (world_run _ _ _ _) as [w|] eqn:Ew in E1; [|discriminate]; injection E1 as <-;
         apply world_rules in Ew as [Ew|Ew]; [exact Ew|]; try contradiction; destruct Ew as [Ew _]; discriminate).
Qed.

Lemma call_rules Y x c i n n' : net_run_call Y x c n = Ok n' ->
  staking_rules n' = staking_rules n \/ sets_staking_rules Y (sk_owner (w_staking (nw_world n))) (NAccepted x c i n').
Proof.
  intros H. destruct c as [c|c].
  - left. destruct c; cbn [net_run_call] in H;
      try (unfold on_vapp in H; destruct (l1_run _ _ _ _); [|discriminate]; now injection H as <-).
    unfold net_step in H. destruct (ne_decode _ _); [|discriminate].
    destruct (on_vapp _ _) as [n1|] eqn:E1 in H; [|discriminate]. cbn [net_bind] in H. rewrite (receipts_rules _ _ _ _ _ H).
    unfold on_vapp in E1. destruct (open_block _ _ _ _ _ _); [|discriminate]. now injection E1 as <-.
  - destruct (match c with WStaking (KCreateProver _) => true | _ => false end) eqn:Ec.
    + destruct c as [[]| | | | | |]; try discriminate. cbn [net_run_call] in H. left. unfold net_create_prover in H.
      destruct (on_world _ _ _ _) as [n1|] eqn:E1 in H; [|discriminate]. cbn [net_bind] in H.
      assert (E : nw_world n' = nw_world n1) by (destruct (register_prover _ _ _ _); [|discriminate]; now injection H as <-).
      unfold on_world in E1. destruct (world_run _ _ _ _) as [w|] eqn:Ew in E1; [|discriminate]. injection E1 as <-.
      unfold staking_rules. rewrite E. apply world_rules in Ew as [Ew|[Ew _]]; [exact Ew|discriminate].
    + assert (Ew : exists b, world_run (net_gov Y) (world_ctx (nx_sender x) x b) c (nw_world n) = Ok (nw_world n')).
      { destruct (match c with WExecute _ _ _ => true | _ => false end) eqn:Ex.
        - destruct c as [| | | | | |l d others]; try discriminate. cbn [net_run_call] in H. apply executed in H as (_ & _ & H). eauto.
        - assert (E : on_world Y (world_ctx (nx_sender x) x false) c n = Ok n') by (destruct c as [[]| | | | | |]; try exact H; discriminate).
          unfold on_world in E. destruct (world_run _ _ _ _) as [w|] eqn:Ew in E; [|discriminate]. injection E as <-. eauto. }
      destruct Ew as [b Ew]. apply world_rules in Ew as [Ew|Ew]; [now left|right].
      destruct c as [c| | | | | |]; cbn in Ew |- *; try contradiction; exact Ew.
Qed.

Lemma C88_staking_proof Y t0 n0 log n now log' n' now' :
  forall (Hrun : net_run Y t0 n0 log n now) (Hrun' : net_run Y t0 n0 (log ++ log') n' now'),
  staking_rules n' = staking_rules n \/ Exists (sets_staking_rules Y (sk_owner (w_staking (nw_world n)))) log'.
Proof.
  intros H H'.
  refine (net_more_ind Y t0 n0 log n now (fun l m => staking_rules m = staking_rules n \/
    Exists (sets_staking_rules Y (sk_owner (w_staking (nw_world n)))) l) H _ _ _ log' n' now' H').
  - now left.
  - intros l n1 x c i n2 IH Hb Hr. destruct IH as [IH|IH]; [|right; apply Exists_app; now left].
    destruct (call_rules Y x c i n1 n2 Hr) as [He|Hs]; [left; congruence|].
    right. apply Exists_app. right. apply Exists_cons. left.
    assert (E : sk_owner (w_staking (nw_world n1)) = sk_owner (w_staking (nw_world n))) by (unfold staking_rules in IH; now injection IH).
    now rewrite <- E.
  - intros l n1 x c e [IH|IH]; [now left|right; apply Exists_app; now left].
Qed.

Lemma C88_staking_renounced_proof Y t0 n0 log n now log' n' now' :
  forall (Hrun : net_run Y t0 n0 log n now) (Hrun' : net_run Y t0 n0 (log ++ log') n' now')
    (Hrenounced : sk_owner (w_staking (nw_world n)) = 0),
  staking_rules n' = staking_rules n.
Proof.
  intros H H' Ho. destruct (C88_staking_proof _ _ _ _ _ _ _ _ _ H H') as [C|C]; [exact C|]. rewrite Ho in C. exfalso.
  assert (Hg : ne_governor Y <> 0) by (pose proof (addresses_differ Y (net_addresses _ _ _ _ _ _ H)); intuition congruence).
  refine (nobody_sets Y t0 n0 log n now log' n' now' (sets_staking_rules Y) H _ _ H' C).
  - intros x c i m Hs. destruct c as [|[]]; cbn in Hs; try contradiction; destruct Hs as [H1 H2]; [exact H2|]. congruence.
  - intros x c e Hs. exact Hs.
Qed.
