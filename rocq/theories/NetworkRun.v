(** The contracts together: the log as each side sees it. *)
From Verif Require Export NetworkFacts.
From Verif Require Import StakingUnstake GovernorFacts GovernorRun L1Facts L1Solvent L1Live.
From Coq Require Import Lia ZifyBool ZifyN ZifyNat.
Open Scope N_scope.

(** ** What a call of the other contracts does to the staking contract *)

Lemma world_rel G (R : staking -> staking -> Prop) x :
  (forall s, R s s) -> (forall s s1 s', R s s1 -> R s1 s' -> R s s') ->
  (forall y c s s' evs, kx_vapp_accepts y = kx_vapp_accepts x -> kx_time y = kx_time x ->
     kx_sender y = kx_sender x \/ kx_sender y = ge_self G ->
     staking_run (ge_staking G) y c s = Ok (s', evs) -> R s s') ->
  (forall s t, R s (sk_set_bank (bk_set_prove t (sk_bank s)) s)) ->
  forall c w w', world_run G x c w = Ok w' -> R (w_staking w) (w_staking w').
Proof.
  intros Hr Htr Hs Ht.
  assert (Hstep : forall y c w w', kx_vapp_accepts y = kx_vapp_accepts x -> kx_time y = kx_time x ->
     kx_sender y = kx_sender x \/ kx_sender y = ge_self G ->
     staking_step G y c w = Ok w' -> R (w_staking w) (w_staking w')).
  { intros y c w w' Ha Hti Hse H. unfold staking_step in H. destruct (staking_run _ _ _ _) as [[s evs]|] eqn:Es; [|discriminate].
    gov_inv. cbn. eapply Hs; [| | |exact Es]; assumption. }
  assert (Htok : forall o w w', token_step o w = Ok w' -> R (w_staking w) (w_staking w')).
  { intros o w w' H. unfold token_step in H. destruct (run_token_op _ _); [|discriminate]. gov_inv. apply Ht. }
  assert (Hact : forall others a w w', run_action G x others a w = Ok w' -> R (w_staking w) (w_staking w')).
  { intros others a w w' H. destruct a as [c| | | | |o| |]; cbn [run_action] in H.
    - set (x' := StakingCtx _ _ _ _ _ _) in H.
      assert (staking_step G x' c w = Ok w') as Hst by (destruct c; try exact H; discriminate).
      eapply Hstep; [..|exact Hst]; cbn; auto.
    - gov_inv. apply Hr.
    - gov_inv. apply Hr.
    - gov_inv. apply Hr.
    - gov_inv. apply Hr.
    - gov_inv. eapply Htok; exact H.
    - gov_inv. apply Hr.
    - gov_inv. apply Hr. }
  assert (Hacts : forall others l w w', run_actions G x others l w = Ok w' -> R (w_staking w) (w_staking w')).
  { intros others l. induction l as [|a l IH]; intros w w' H; cbn [run_actions] in H; [gov_inv; apply Hr|].
    gov_inv. eapply Htr; [eapply Hact; eassumption|eapply IH; eassumption]. }
  intros c w w' H. destruct c as [c|o|d|via l d|via l d|via i f|l d others]; cbn [world_run] in H.
  - eapply Hstep; [..|exact H]; auto.
  - eapply Htok; exact H.
  - gov_inv. apply Hr.
  - gov_inv. unfold propose in H. gov_inv. apply Hr.
  - gov_inv. unfold cancel_proposal in H. gov_inv. apply Hr.
  - gov_inv. unfold cast_vote in H. gov_inv. apply Hr.
  - unfold execute_proposal in H. gov_inv. apply Hacts in H. exact H.
Qed.

(** Provers are made by [create2]. *)
Lemma gov_provers G t0 w0 log w now : gov_run G t0 w0 log w now ->
  forall p, p ∈ rg_provers (sk_registry (w_staking w)) -> exists o m f, p = ke_create2 (ge_staking G) o m f.
Proof.
  set (Q := fun s => forall p, p ∈ rg_provers (sk_registry s) -> exists o m f, p = ke_create2 (ge_staking G) o m f).
  change (gov_run G t0 w0 log w now -> Q (w_staking w)).
  intros H. induction H as [Hs| |log w now x c w' _ IH _ _ Hrun|]; try assumption.
  - destruct Hs as [_ _ _ _ (pr & ow & pa & di & s0 & de & pe & th & qu & g0 & _ & Hi & _ & ->)].
    unfold staking_initialize in Hi. destruct (forallb _ _); [|discriminate]. injection Hi as <-.
    intros p Hp. cbn in Hp. set_solver.
  - revert IH. eapply (world_rel G (fun s s' => Q s -> Q s') x); [| | | |exact Hrun]; cbn; auto.
    intros y c0 s s' evs _ _ _ Hst HQ p Hp. apply registry_step in Hst. destruct Hst as [He _ _ _|bips m _ _ _ _ _ ->].
    + rewrite He in Hp. now apply HQ.
    + cbn in Hp. apply elem_of_union in Hp as [Hp|Hp]; [|now apply HQ].
      apply elem_of_singleton in Hp as ->. eauto.
Qed.

(** ** The log as staking, token and governor see it *)

Definition gov_ext (G : gov_env) (now : N) (w : world) (l : list gov_entry) (w' : world) : Prop :=
  forall t0 w0 log, gov_run G t0 w0 log w now -> gov_run G t0 w0 (log ++ l) w' now.

Lemma ext_nil G now w : gov_ext G now w [] w.
Proof. intros t0 w0 log H. now rewrite app_nil_r. Qed.
Lemma ext_trans G now w l w1 l' w' : gov_ext G now w l w1 -> gov_ext G now w1 l' w' -> gov_ext G now w (l ++ l') w'.
Proof. intros H H' t0 w0 log Hr. rewrite app_assoc. now apply H', H. Qed.
Lemma ext_one G y c w w' :
  (forall t0 w0 log, gov_run G t0 w0 log w (kx_time y) -> by_anyone G w y c) -> world_run G y c w = Ok w' ->
  gov_ext G (kx_time y) w [WAccepted y c w'] w'.
Proof. intros Hb H t0 w0 log Hr. eapply gr_accepted; [exact Hr|reflexivity|eapply Hb; exact Hr|exact H]. Qed.

Lemma set_prove_same w : set_prove (prove_of w) w = w.
Proof. destruct w as [s v g]. destruct s as [o b r d a1 a2 a3 a4 a5]. destruct b. reflexivity. Qed.

Lemma sees_same Y x n n' : va_staking (nw_vapp n') = va_staking (nw_vapp n) ->
  rg_provers (sk_registry (w_staking (nw_world n'))) = rg_provers (sk_registry (w_staking (nw_world n))) ->
  sees_prover Y x n' = sees_prover Y x n.
Proof. intros H1 H2. unfold sees_prover, is_prover. now rewrite H1, H2. Qed.


(** The rewards in a log. *)
Definition gov_rewards (l : list gov_entry) : list (N * N) :=
  flat_map (fun e => match e with WAccepted _ (WStaking (KReward p amount)) _ => [(p, amount)] | _ => [] end) l.
Lemma gov_rewards_app l l' : gov_rewards (l ++ l') = gov_rewards l ++ gov_rewards l'.
Proof. apply flat_map_app. Qed.
(** The withdrawals that a step pays as rewards. *)
Definition paid_as_rewards (Y : net_env) (x : net_ctx) (n : network) (rs : list sol_receipt) : list (N * N) :=
  List.filter (fun w => sees_prover Y x n (fst w)) (flat_map reported_withdrawal rs).
Definition entry_rewards (Y : net_env) (e : net_entry) : list (N * N) :=
  match e with
  | NAccepted x (CVApp (CStep pv _)) _ after =>
      match ne_decode Y pv with Some p => paid_as_rewards Y x after (pv_receipts p) | None => [] end
  | _ => []
  end.

(** The settlement contract does it during the call [x]. *)
Definition does_now (Y : net_env) (x : net_ctx) (e : gov_entry) : Prop := vapp_does Y e /\ entry_when e = nx_time x.

Section Gov.
Context (Y : net_env) (Ha : net_addresses_ok Y).

Lemma vapp_acts t0 w0 log w now : gov_run (net_gov Y) t0 w0 log w now -> acts (net_gov Y) w (ne_vapp Y).
Proof using Ha.
  intros H. destruct (addresses_differ Y Ha) as (?&?&?&?&?&?). destruct Ha as [Hz Hd Hc]. cbn in Hz.
  unfold acts, outside. cbn. repeat split; try (intuition congruence).
  intros Hp. destruct (gov_provers _ _ _ _ _ _ H _ Hp) as (o & m & f & He). destruct (Hc o m f) as [_ Hn]. apply Hn.
  cbn in He. rewrite <- He. cbn. auto.
Qed.

Lemma vapp_token_ext x o w t :
  match o with
  | OTransfer a _ _ | OTransferFrom a _ _ _ | OApprove a _ _ | OBurn a _ | OBurnFrom a _ _ => outside (net_staking Y) a
  | OMint _ _ => True
  end ->
  run_token_op (prove_of w) o = Ok t ->
  gov_ext (net_gov Y) (nx_time x) w [WAccepted (world_ctx (ne_vapp Y) x false) (WToken o) (set_prove t w)] (set_prove t w).
Proof using Ha.
  intros Ho H. change (nx_time x) with (kx_time (world_ctx (ne_vapp Y) x false)). apply ext_one.
  - intros t0 w0 log Hr. split; [eapply vapp_acts; exact Hr|]. cbn. destruct o; exact Ho.
  - cbn [world_run]. unfold token_step. fold (prove_of w). rewrite H. reflexivity.
Qed.

Lemma vapp_signs : ne_vapp Y <> ne_staking Y /\ ne_vapp Y <> ne_iprove Y.
Proof using Ha. destruct (addresses_differ Y Ha) as (?&?&?&?&?&?). intuition congruence. Qed.

Lemma withdraw_ext x to amount n n' :
  net_withdraw Y x to amount n = Ok n' ->
  nw_vapp n' = nw_vapp n /\ sees_prover Y x n' = sees_prover Y x n /\
  exists l, gov_ext (net_gov Y) (nx_time x) (nw_world n) l (nw_world n') /\ Forall (does_now Y x) l /\
    gov_rewards l = List.filter (fun w => sees_prover Y x n (fst w)) [(to, amount)].
Proof using Ha.
  unfold net_withdraw, on_world. intros H. cbn [List.filter fst]. destruct (sees_prover Y x n to);
    (destruct (world_run _ _ _ _) as [w|] eqn:Ew in H; [|discriminate]); injection H as <-; (split; [reflexivity|]);
    (split; [apply sees_same; [reflexivity|]; cbn [nw_world]|
    eexists; (split; [change (nx_time x) with (kx_time (world_ctx (ne_vapp Y) x false)); apply ext_one; [|exact Ew];
      intros t0 w0 log Hr; split; [eapply vapp_acts; exact Hr|] | split; [repeat constructor|reflexivity]])]).
  - cbn [world_run] in Ew. unfold staking_step in Ew. destruct (staking_run _ _ _ _) as [[s evs]|] eqn:Es; [|discriminate].
    apply registry_step in Es. destruct Es as [He _ _ _|b m Hb _ _ _ _ _]; [|discriminate]. gov_inv. exact He.
  - exact I.
  - cbn [world_run] in Ew. unfold token_step in Ew. destruct (run_token_op _ _); [|discriminate]. gov_inv. reflexivity.
  - cbn. unfold outside. cbn. apply vapp_signs.
Qed.

Lemma on_vapp_same f n n' : (forall v v', f v = Ok v' -> va_prove v' = va_prove v) -> on_vapp f n = Ok n' ->
  f (vapp_of n) = Ok (nw_vapp n') /\ nw_world n' = nw_world n /\ vapp_of n' = nw_vapp n'.
Proof using.
  unfold on_vapp. intros Hf H. destruct (f (vapp_of n)) as [v|] eqn:Ef; [|discriminate]. injection H as <-. cbn.
  pose proof (Hf _ _ Ef) as Hp. split; [reflexivity|]. unfold vapp_of at 1 in Hp. cbn in Hp.
  assert (Hw : set_prove (va_prove v) (nw_world n) = nw_world n) by (rewrite Hp; apply set_prove_same).
  split; [exact Hw|]. unfold vapp_of. cbn. now destruct v.
Qed.

Lemma receipts_ext x rs : forall n n', net_receipts Y x rs n = Ok n' ->
  sees_prover Y x n' = sees_prover Y x n /\
  exists l, gov_ext (net_gov Y) (nx_time x) (nw_world n) l (nw_world n') /\ Forall (does_now Y x) l /\
    gov_rewards l = paid_as_rewards Y x n rs.
Proof using Ha.
  induction rs as [|r rs IH]; intros n n' H; cbn [net_receipts] in H.
  - injection H as <-. split; [reflexivity|]. exists []. split; [apply ext_nil|repeat constructor].
  - destruct (if negb _ then _ else _) as [n1|] eqn:E1 in H; [|discriminate]. cbn [net_bind] in H.
    destruct (IH _ _ H) as (Hq2 & l2 & H2 & F2 & R2).
    assert (sees_prover Y x n1 = sees_prover Y x n /\
      exists l1, gov_ext (net_gov Y) (nx_time x) (nw_world n) l1 (nw_world n1) /\ Forall (does_now Y x) l1 /\
        gov_rewards l1 = paid_as_rewards Y x n [r]) as (Hq1 & l1 & H1 & F1 & R1).
    { unfold paid_as_rewards. cbn [flat_map]. rewrite app_nil_r. unfold reported_withdrawal. change (2 ^ 64 - 1) with u64_max.
      destruct (sr_tx_id r =? u64_max); cbn [negb] in E1.
      - unfold net_offchain_receipt in E1. destruct (sr_status r); try discriminate.
        + destruct (sr_variant r); try discriminate. destruct (l1_decode_withdraw _) as [a|] eqn:Ea; [|discriminate].
          apply withdraw_ext in E1 as [_ E1]. rewrite (decode_withdrawal _ _ Ea). exact E1.
        + injection E1 as <-. split; [reflexivity|]. exists []. split; [apply ext_nil|repeat constructor].
      - apply on_vapp_same in E1 as (Hh & Hw & _); [|intros v v'; apply onchain_token].
        split; [|exists []; rewrite Hw; split; [apply ext_nil|repeat constructor]].
        apply sees_same; [|now rewrite Hw].
        apply onchain_settings in Hh. unfold settings in Hh. injection Hh as _ _ _ _ Hs _ _. exact Hs. }
    split; [congruence|].
    exists (l1 ++ l2). split; [eapply ext_trans; eassumption|]. split; [now apply Forall_app|].
    rewrite gov_rewards_app, R1, R2. unfold paid_as_rewards. rewrite Hq1, <- List.filter_app. cbn [flat_map]. now rewrite app_nil_r.
Qed.

Lemma onchain_step_sees x pv pf p n n1 :
  on_vapp (open_block (net_l1 Y) (l1_ctx_of Y x n) pv pf p) n = Ok n1 ->
  nw_world n1 = nw_world n /\ sees_prover Y x n1 = sees_prover Y x n.
Proof using.
  intros H. apply on_vapp_same in H as (Ho & Hw & _);
    [|intros v v' Hv; unfold open_block in Hv; l1_inv; subst; reflexivity].
  split; [exact Hw|]. apply sees_same; [|now rewrite Hw]. unfold open_block in Ho. l1_inv.
  match goal with H : _ = nw_vapp n1 |- _ => rewrite <- H end. reflexivity.
Qed.

Lemma open_block_token L x pv pf p v v' : open_block L x pv pf p v = Ok v' -> va_prove v' = va_prove v.
Proof using. unfold open_block. intros H. l1_inv. subst. reflexivity. Qed.

Lemma create_token variant data v v' : create_transaction variant data v = Ok v' -> va_prove v' = va_prove v.
Proof using. unfold create_transaction. intros H. l1_inv. subst. reflexivity. Qed.

Lemma deposit_ext x from amount w v v' : va_prove v = prove_of w ->
  deposit_from (net_l1 Y) from amount v = Ok v' ->
  exists l, gov_ext (net_gov Y) (nx_time x) w l (set_prove (va_prove v') w) /\ Forall (does_now Y x) l /\ gov_rewards l = [].
Proof using Ha.
  intros Hv H. apply deposit_from_ok in H as (_ & v1 & t & Hc & Ht & ->). cbn [va_prove va_set_prove].
  apply create_token in Hc. rewrite Hc, Hv in Ht. eexists. split.
  - apply vapp_token_ext with (o := OTransferFrom (ne_vapp Y) from (ne_vapp Y) amount); [|exact Ht].
    apply vapp_signs.
  - repeat constructor.
Qed.

Lemma by_anyone_world n x b c : net_by_anyone Y n x (CWorld c) ->
  by_anyone (net_gov Y) (nw_world n) (world_ctx (nx_sender x) x b) c.
Proof using.
  intros [(H0 & H1 & H2 & H3 & H4 & H5) Hc]. split.
  - unfold acts, outside. cbn. auto 10.
  - destruct c as [c|o|d|via l d|via l d|via i f|l d others]; cbn in Hc |- *; auto.
    + destruct c; cbn in *; auto. unfold signs in Hc. unfold outside. cbn. intuition.
    + destruct o; cbn in *; auto; unfold signs in Hc; unfold outside; cbn; intuition.
    + eapply Forall_impl; [exact Hc|]. intros [c| | | | | | |]; auto. destruct c; cbn; auto.
      unfold signs, outside. cbn. intuition.
Qed.

Definition quiet (c : l1_call) : Prop := match c with CStep _ _ | CDeposit _ | CPermitAndDeposit _ _ => False | _ => True end.
Lemma quiet_token L x c v v' : quiet c -> l1_run L x c v = Ok v' -> va_prove v' = va_prove v.
Proof using.
  intros Hq H. destruct c as [| |p o b| |k r|a]; try contradiction; cbn [l1_run] in H.
  - unfold l1_create_prover in H. l1_inv. eapply create_token; eassumption.
  - unfold l1_fork in H. l1_inv. subst. reflexivity.
  - unfold l1_admin in H. l1_inv. cbv zeta in H. destruct a; repeat match type of H with context [if ?b then _ else _] => destruct b end;
      l1_inv; subst; reflexivity.
Qed.

Lemma call_ext n x c inputs n' : net_by_anyone Y n x c -> net_run_call Y x c n = Ok n' ->
  exists l, gov_ext (net_gov Y) (nx_time x) (nw_world n) l (nw_world n') /\
    List.filter (not_vapp Y) l = world_entry (NAccepted x c inputs n') /\
    Forall (fun e => not_vapp Y e = true \/ vapp_does Y e) l /\
    gov_rewards l = entry_rewards Y (NAccepted x c inputs n') /\
    Forall (fun e => entry_when e = nx_time x) l /\
    (match c with CVApp _ => Forall (vapp_does Y) l | CWorld _ => l = world_entry (NAccepted x c inputs n') end).
Proof using Ha.
  intros Hby H.
  assert (Hv : forall l R, Forall (does_now Y x) l -> gov_rewards l = R -> List.filter (not_vapp Y) l = [] /\
    Forall (fun e => not_vapp Y e = true \/ vapp_does Y e) l /\ gov_rewards l = R /\
    Forall (fun e => entry_when e = nx_time x) l /\ Forall (vapp_does Y) l).
  { intros l R Hl <-. unfold does_now in Hl. apply Forall_and in Hl as [Hl Ht].
    split; [|split; [eapply Forall_impl; [exact Hl|auto]|auto]]. clear Ht. induction Hl as [|e l He Hl IH]; [reflexivity|].
    cbn. assert (not_vapp Y e = false) as ->; [|exact IH].
    destruct e as [y c0 w|]; [|contradiction]. cbn in *. destruct c0 as [c0|o| | | | |]; try contradiction;
      [destruct c0; try contradiction|]; rewrite He, N.eqb_refl; reflexivity. }
  assert (Hw : forall b wc w, net_by_anyone Y n x (CWorld wc) ->
    world_run (net_gov Y) (world_ctx (nx_sender x) x b) wc (nw_world n) = Ok w ->
    gov_ext (net_gov Y) (nx_time x) (nw_world n) [WAccepted (world_ctx (nx_sender x) x b) wc w] w /\
    not_vapp Y (WAccepted (world_ctx (nx_sender x) x b) wc w) = true).
  { intros b wc w Hb Hr. split.
    - change (nx_time x) with (kx_time (world_ctx (nx_sender x) x b)). apply ext_one; [|exact Hr].
      intros t0 w0 log _. now apply by_anyone_world.
    - cbn. destruct Hb as [(_ & _ & _ & _ & Hs & _) _]. apply negb_true_iff. now apply N.eqb_neq. }
  destruct c as [c|c].
  - destruct c as [amount|from amount|p o b|pv pf|k r|a] eqn:Ec.
    + cbn [net_run_call] in H. unfold on_vapp in H. cbn [l1_run] in H. destruct (l1_deposit _ _ _ _) as [v|] eqn:Ed; [|discriminate].
      injection H as <-. cbn [nw_world]. unfold l1_deposit in Ed. l1_inv.
      eapply (deposit_ext x) in Ed as (l & Hl & Fl); [|reflexivity]. exists l. split; [exact Hl|]. exact (Hv l _ (proj1 Fl) (proj2 Fl)).
    + cbn [net_run_call] in H. unfold on_vapp in H. cbn [l1_run] in H. destruct (l1_permit_and_deposit _ _ _ _ _) as [v|] eqn:Ed; [|discriminate].
      injection H as <-. cbn [nw_world]. apply permit_ok in Ed as [_ [[_ Ed]|[Hp Ed]]].
      * eapply (deposit_ext x) in Ed as (l & Hl & Fl); [|reflexivity]. exists l. split; [exact Hl|]. exact (Hv l _ (proj1 Fl) (proj2 Fl)).
      * set (t1 := tk_approve _ _ _ _) in Ed.
        eapply (deposit_ext x) with (w := set_prove t1 (nw_world n)) in Ed as (l & Hl & Fl); [|reflexivity].
        set (e1 := WAccepted (world_ctx (ne_vapp Y) x false) (WToken (OApprove from (ne_vapp Y) amount)) (set_prove t1 (nw_world n))).
        exists ([e1] ++ l). split.
        -- eapply ext_trans; [apply vapp_token_ext with (o := OApprove from (ne_vapp Y) amount)|exact Hl].
           ++ destruct Hby as [_ Hby]. destruct (Hby Hp) as (? & ? & _). split; assumption.
           ++ reflexivity.
        -- apply Hv; [constructor; [split; reflexivity|exact (proj1 Fl)]|]. exact (proj2 Fl).
    + apply on_vapp_same in H as (_ & -> & _); [|intros v v'; apply quiet_token; exact I]. exists []. repeat split; try apply ext_nil; constructor.
    + cbn [net_run_call] in H. unfold net_step in H. destruct (ne_decode Y pv) as [p|] eqn:Ed; [|discriminate].
      destruct (on_vapp _ _) as [n1|] eqn:E1 in H; [|discriminate]. cbn [net_bind] in H.
      apply onchain_step_sees in E1 as [<- Hq1].
      apply receipts_ext in H as (Hq & l & Hl & Fl & Rl). exists l. split; [exact Hl|]. apply Hv; [exact Fl|].
      rewrite Rl. cbn [entry_rewards]. rewrite Ed. unfold paid_as_rewards. now rewrite Hq.
    + apply on_vapp_same in H as (_ & -> & _); [|intros v v'; apply quiet_token; exact I]. exists []. repeat split; try apply ext_nil; constructor.
    + apply on_vapp_same in H as (_ & -> & _); [|intros v v'; apply quiet_token; exact I]. exists []. repeat split; try apply ext_nil; constructor.
  - assert (exists b w, b = (match c with WStaking (KCreateProver _) | WExecute _ _ _ => true | _ => false end) /\
      world_run (net_gov Y) (world_ctx (nx_sender x) x b) c (nw_world n) = Ok w /\ nw_world n' = w) as (b & w & -> & Hr & <-).
    { destruct c as [c|o|d|via l d|via l d|via i f|l d others]; cbn [net_run_call] in H;
        try (unfold on_world in H; destruct (world_run _ _ _ _) as [w|] eqn:Ew in H; [|discriminate]; injection H as <-; eauto).
      - destruct c; try discriminate;
          try (unfold on_world in H; destruct (world_run _ _ _ _) as [w|] eqn:Ew in H; [|discriminate]; injection H as <-; eauto).
        unfold net_create_prover in H. destruct (register_prover Y x bips n) as [v|]; [|destruct (on_world _ _ _ _); discriminate].
        unfold on_world in H. destruct (world_run _ _ _ _) as [w|] eqn:Ew in H; [|discriminate]. cbn in H. injection H as <-. eauto.
      - apply executed in H as (_ & _ & H). do 2 eexists. split; [reflexivity|split; [exact H|reflexivity]]. }
    destruct (Hw _ c _ Hby Hr) as [He Hn].
    eexists. split; [exact He|]. split; [|split; [constructor; [left; exact Hn|constructor]|split; [|split; [repeat constructor|reflexivity]]]].
    + cbn [List.filter]. rewrite Hn. reflexivity.
    + cbn [gov_rewards flat_map entry_rewards]. destruct c as [c|o|d|via l d|via l d|via i f|l d others]; try reflexivity.
      destruct c; try reflexivity. discriminate.
Qed.
End Gov.

Lemma net_addresses Y t0 n0 log n now : net_run Y t0 n0 log n now -> net_addresses_ok Y.
Proof. induction 1 as [Hs| | |]; [apply Hs|assumption..]. Qed.

Lemma net_gov_start Y t0 n0 : net_start Y t0 n0 -> gov_start (net_gov Y) t0 (nw_world n0).
Proof.
  intros [Ha Ht (P & prove & Hal & Hd)]. destruct (addresses_differ Y Ha) as (?&?&?&?&?&?).
  unfold atomic_deploy in Hd. destruct (governor_start _ _ _ _ _) as [g|] eqn:Eg; [|discriminate].
  destruct (l1_initialize _ _ _ _ _ _ _ _ _ _) as [v|] eqn:El; [|discriminate].
  destruct (staking_initialize _ _ _ _ _ _) as [s|] eqn:Es; [|discriminate]. injection Hd as <-.
  destruct Ha as [Hz Hdi Hc]. cbn in Hz. constructor; [| | |exact Ht|].
  - constructor; cbn; try (intuition congruence). intros o m f. destruct (Hc o m f) as [_ Hn]. cbn in Hn. intuition congruence.
  - cbn. unfold outside. cbn. intuition congruence.
  - intros o m f He. cbn in He. destruct (Hc o m f) as [_ Hn]. apply Hn. rewrite He. cbn. auto 10.
  - do 10 eexists. split; [|split; [exact Es|split; [exact Eg|reflexivity]]].
    unfold l1_initialize in El. destruct (_ || _) in El; [discriminate|]. injection El as <-. cbn.
    intros a. unfold tk_allowance, tk_approve. cbn.
    split; rewrite lookup_insert_ne by (intros He; injection He; intros; congruence); apply Hal; cbn; auto.
Qed.

Lemma net_gov_run Y t0 n0 log n now : net_run Y t0 n0 log n now ->
  exists glog, gov_run (net_gov Y) t0 (nw_world n0) glog (nw_world n) now /\
    List.filter (not_vapp Y) glog = world_log log /\
    Forall (fun e => not_vapp Y e = true \/ vapp_does Y e) glog /\
    gov_rewards glog = flat_map (entry_rewards Y) log.
Proof.
  intros H. pose proof (net_addresses _ _ _ _ _ _ H) as Ha.
  induction H as [Hs|log n now now' H IH H1 H2|log n now x c inputs n' H IH Ht Hb Hr|log n now x c e H IH Ht Hb Hr].
  - exists []. split; [apply gr_start, net_gov_start, Hs|split; [reflexivity|split; [constructor|reflexivity]]].
  - destruct IH as (g & Hg & Hf & Hv). exists g. split; [eapply gr_wait; eassumption|auto].
  - destruct IH as (g & Hg & Hf & Hv & Rg). destruct (call_ext Y Ha n x c inputs n' Hb Hr) as (l & Hl & Fl & Vl & Rl & _).
    exists (g ++ l). rewrite Ht in Hl. split; [now apply Hl|]. split; [|split; [now apply Forall_app|]].
    + rewrite List.filter_app, Hf, Fl. unfold world_log. rewrite flat_map_app. cbn [flat_map]. now rewrite app_nil_r.
    + rewrite gov_rewards_app, Rg, Rl, flat_map_app. cbn [flat_map]. now rewrite app_nil_r.
  - destruct IH as (g & Hg & Hf & Hv & Rg). exists g. split; [assumption|]. split; [|split; [assumption|]].
    + rewrite Hf. unfold world_log. rewrite flat_map_app. cbn. now rewrite app_nil_r.
    + rewrite Rg, flat_map_app. cbn. now rewrite app_nil_r.
Qed.
