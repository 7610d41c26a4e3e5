(** The contracts together: the log as the staking contract sees it. *)
From Verif Require Export NetworkSettle.
From Verif Require Import StakingFacts StakingUnstake StakingBank StakingValue GovernorFacts GovernorRun L1Facts L1Solvent L1Live.
From Coq Require Import Lia ZifyBool ZifyN ZifyNat.
Open Scope N_scope.

Lemma stk_app K s l s1 l' s' : stk_history K s l s1 -> stk_history K s1 l' s' -> stk_history K s (l ++ l') s'.
Proof.
  intros H H'. induction H; cbn; [assumption|..].
  - eapply kh_accepted; eauto.
  - eapply kh_reverted; eauto.
  - eapply kh_token; eauto.
Qed.

(** Entries of the staking contract for a call of the world. *)
Definition by_governor (G : gov_env) (e : stk_entry) : Prop :=
  match e with KAccepted x c _ _ => kx_sender x = ge_self G /\ match c with KReward _ _ => False | _ => True end | _ => True end.
Definition direct (y : staking_ctx) (c : staking_call) (l : list stk_entry) : Prop :=
  exists x evs s, l = [KAccepted x c evs s] /\ kx_sender x = kx_sender y.
Definition stk_part (G : gov_env) (y : staking_ctx) (c : world_call) (l : list stk_entry) : Prop :=
  match c with WStaking c => direct y c l | _ => Forall (by_governor G) l end.

Lemma world_stk G w y c w' : ge_self G <> 0 -> outside (ge_staking G) (ge_self G) ->
  by_anyone G w y c -> world_run G y c w = Ok w' ->
  exists l, stk_history (ge_staking G) (w_staking w) l (w_staking w') /\ Forall (by_outsider (ge_staking G)) l /\ stk_part G y c l.
Proof.
  intros Hg0 Hg [Hact Hby] H.
  assert (Hstep : forall z c w w', outside (ge_staking G) (kx_sender z) -> no_permit_of_contracts G c ->
    staking_step G z c w = Ok w' ->
    exists l, stk_history (ge_staking G) (w_staking w) l (w_staking w') /\ Forall (by_outsider (ge_staking G)) l /\ direct z c l).
  { clear. intros z c w w' Ho Hp H. unfold staking_step in H.
    destruct (staking_run _ _ _ _) as [[s evs]|] eqn:Es; [|discriminate].
    assert (w_staking w' = s) as -> by (gov_inv; reflexivity). eexists. split; [|split].
    - eapply kh_accepted; [exact Es|constructor].
    - apply Forall_singleton. cbn. split; [exact Ho|]. destruct c; auto.
    - do 3 eexists. split; reflexivity. }
  assert (Htok : forall o w w', by_outsider (ge_staking G) (KTokenOp o) -> token_step o w = Ok w' ->
    exists l, stk_history (ge_staking G) (w_staking w) l (w_staking w') /\ Forall (by_outsider (ge_staking G)) l /\ Forall (by_governor G) l).
  { clear. intros o w w' Ho H. unfold token_step in H. destruct (run_token_op _ _) as [t|] eqn:Et; [|discriminate]. gov_inv.
    exists [KTokenOp o]. split; [eapply kh_token; [exact Et|constructor]|]. split; apply Forall_singleton; [exact Ho|exact I]. }
  assert (Hact1 : forall others a w w', match a with GaStaking c => no_permit_of_contracts G c | _ => True end ->
    run_action G y others a w = Ok w' ->
    exists l, stk_history (ge_staking G) (w_staking w) l (w_staking w') /\ Forall (by_outsider (ge_staking G)) l /\ Forall (by_governor G) l).
  { intros others a v v' Hp Ha.
    assert (Hnone : w_staking v' = w_staking v -> exists l, stk_history (ge_staking G) (w_staking v) l (w_staking v') /\
      Forall (by_outsider (ge_staking G)) l /\ Forall (by_governor G) l).
    { intros ->. exists []. repeat constructor. }
    destruct a as [c0| | | | |o| |]; cbn [run_action] in Ha; try (gov_inv; apply Hnone; reflexivity).
    - set (x' := StakingCtx _ _ _ _ _ _) in Ha.
      assert (match c0 with KReward _ _ => False | _ => True end /\ staking_step G x' c0 v = Ok v') as [Hc Hs]
        by (destruct c0; split; try exact Ha; try exact I; discriminate).
      apply Hstep in Hs as (l & Hl & Ol & (z & evs & s & -> & Hz)); [|exact Hg|exact Hp].
      eexists. split; [exact Hl|]. split; [exact Ol|]. apply Forall_singleton. cbn. split; [exact Hz|exact Hc].
    - gov_inv. eapply Htok; [|exact Ha]. destruct o; cbn in Heqb; try discriminate; apply N.eqb_eq in Heqb; cbn; subst; exact Hg. }
  assert (Hacts : forall others l w w', Forall (fun a => match a with GaStaking c => no_permit_of_contracts G c | _ => True end) l ->
    run_actions G y others l w = Ok w' ->
    exists k, stk_history (ge_staking G) (w_staking w) k (w_staking w') /\ Forall (by_outsider (ge_staking G)) k /\ Forall (by_governor G) k).
  { intros others l. induction l as [|a l IH]; intros v v' Hf Hr; cbn [run_actions] in Hr.
    - gov_inv. exists []. repeat constructor.
    - apply Forall_cons in Hf as [Hp Hf]. gov_inv.
      match goal with H : run_action _ _ _ _ _ = Ok _ |- _ => apply Hact1 in H as (k1 & K1 & O1 & B1); [|exact Hp] end.
      match goal with H : run_actions _ _ _ _ _ = Ok _ |- _ => apply IH in H as (k2 & K2 & O2 & B2); [|exact Hf] end.
      exists (k1 ++ k2). split; [eapply stk_app; eassumption|]. split; now apply Forall_app. }
  assert (Hnone : w_staking w' = w_staking w -> exists l, stk_history (ge_staking G) (w_staking w) l (w_staking w') /\
      Forall (by_outsider (ge_staking G)) l /\ Forall (by_governor G) l).
  { intros ->. exists []. repeat constructor. }
  destruct c as [c|o|d|via l d|via l d|via i f|l d others]; cbn [world_run stk_part] in *.
  - eapply Hstep; [|exact Hby|exact H]. apply Hact.
  - eapply Htok; eassumption.
  - gov_inv. now apply Hnone.
  - gov_inv. unfold propose in H. gov_inv. now apply Hnone.
  - gov_inv. unfold cancel_proposal in H. gov_inv. now apply Hnone.
  - gov_inv. unfold cast_vote in H. gov_inv. now apply Hnone.
  - unfold execute_proposal in H. gov_inv. apply Hacts in H; [|exact Hby]. exact H.
Qed.

(** What the log of the world says about staking calls. *)
Definition gov_calls (G : gov_env) (l : list gov_entry) : list (N * staking_call) :=
  flat_map (fun e => match e with WAccepted x (WStaking c) _ => [(kx_sender x, c)] | _ => [] end) l.
Definition stk_calls (G : gov_env) (l : list stk_entry) : list (N * staking_call) :=
  flat_map (fun e => match e with
                     | KAccepted x c _ _ => if kx_sender x =? ge_self G then [] else [(kx_sender x, c)]
                     | _ => []
                     end) l.
Definition no_governor_reward (G : gov_env) (e : stk_entry) : Prop :=
  match e with KAccepted x (KReward _ _) _ _ => kx_sender x <> ge_self G | _ => True end.

Lemma by_governor_calls G l : Forall (by_governor G) l -> stk_calls G l = [] /\ rewards l = [] /\ Forall (no_governor_reward G) l.
Proof.
  induction 1 as [|e l He Hl (IH1 & IH2 & IH3)]; [repeat constructor|].
  unfold stk_calls, rewards in *. cbn [flat_map]. rewrite IH1, IH2.
  destruct e as [x c evs s| |]; [|repeat split; repeat constructor; assumption..].
  destruct He as [Hx Hc]. rewrite Hx, N.eqb_refl. split; [reflexivity|]. destruct c; try contradiction;
    (split; [reflexivity|constructor; [exact I|assumption]]).
Qed.

Lemma gov_rewards_one x c w : gov_rewards [WAccepted x c w] =
  match c with WStaking (KReward p a) => [(p, a)] | _ => [] end.
Proof. cbn. destruct c as [c|o|d|via l d|via l d|via i f|l d others]; try reflexivity. now destruct c. Qed.

Lemma gov_stk G t0 w0 log w now : gov_run G t0 w0 log w now ->
  exists klog, stk_run (ge_staking G) klog (w_staking w) /\ stk_calls G klog = gov_calls G log /\
    rewards klog = gov_rewards log /\ Forall (no_governor_reward G) klog.
Proof.
  intros H. assert (Hst : gov_start G t0 w0) by (clear -H; induction H; assumption).
  destruct Hst as [Ha [Hg0 Hg] Hc Ht Hs].
  enough (exists klog, stk_history (ge_staking G) (w_staking w0) klog (w_staking w) /\ Forall (by_outsider (ge_staking G)) klog /\
    stk_calls G klog = gov_calls G log /\ rewards klog = gov_rewards log /\ Forall (no_governor_reward G) klog)
    as (klog & H1 & H2 & H3).
  { exists klog. split; [|exact H3]. constructor; [exact Ha| |exact H2].
    destruct Hs as (pr & ow & pa & di & s0 & de & pe & th & qu & g0 & Hal & Hi & _ & ->).
    do 6 eexists. split; [exact Hal|]. split; [exact Hi|exact H1]. }
  clear Hs. induction H as [Hs|log w now now' H IH H1 H2|log w now x c w' H IH Hti Hby Hrun|log w now x c e H IH Hti Hby Hrun].
  - exists []. repeat constructor.
  - exact IH.
  - destruct IH as (k & K1 & K2 & K3 & K4 & K5). destruct (world_stk G w x c w' Hg0 Hg Hby Hrun) as (l & L1 & L2 & L3).
    exists (k ++ l). split; [eapply stk_app; eassumption|]. split; [now apply Forall_app|].
    assert (stk_calls G l = gov_calls G [WAccepted x c w'] /\ rewards l = gov_rewards [WAccepted x c w'] /\
      Forall (no_governor_reward G) l) as (E1 & E2 & E3).
    { rewrite gov_rewards_one. destruct c as [c|o|d|via la d|via la d|via i f|la d others]; cbn [stk_part] in L3;
        try (apply by_governor_calls in L3 as (-> & -> & L3); now repeat split).
      destruct L3 as (z & evs & s & -> & Hz). cbn.
      assert (Hne : kx_sender z <> ge_self G) by (rewrite Hz; apply Hby).
      rewrite (proj2 (N.eqb_neq _ _) Hne), Hz. split; [reflexivity|]. split; [now destruct c|].
      apply Forall_singleton. cbn. destruct c; try exact I. exact Hne. }
    unfold stk_calls, gov_calls, rewards, gov_rewards in *. rewrite !flat_map_app, K3, K4, E1, E2.
    repeat split; try reflexivity. now apply Forall_app.
  - destruct IH as (k & K1 & K2 & K3 & K4 & K5). exists k. split; [exact K1|]. split; [exact K2|].
    unfold gov_calls, gov_rewards in *. rewrite !flat_map_app. cbn. rewrite !app_nil_r. auto.
Qed.

(** ** All together *)

Lemma calls_filter Y l : (forall e, e ∈ l -> not_vapp Y e = true \/ vapp_does Y e) ->
  forall G, List.filter (fun p => negb (fst p =? ne_vapp Y)) (gov_calls G l) = gov_calls G (List.filter (not_vapp Y) l).
Proof.
  intros Hl G. unfold gov_calls. induction l as [|e l IH]; [reflexivity|]. cbn [flat_map List.filter].
  rewrite List.filter_app, IH by (intros e' He'; apply Hl; now apply elem_of_list_further).
  destruct e as [x c w|x c e]; cbn [not_vapp].
  - destruct (kx_sender x =? ne_vapp Y) eqn:E; cbn [negb]; destruct c as [c|o|d|via la d|via la d|via i f|la d others];
      cbn; rewrite ?E; reflexivity.
  - cbn. destruct (kx_sender x =? ne_vapp Y); reflexivity.
Qed.

Lemma world_calls G log : gov_calls G (world_log log) = staking_calls log.
Proof.
  unfold gov_calls, world_log, staking_calls. induction log as [|e l IH]; [reflexivity|]. cbn [flat_map].
  rewrite flat_map_app, IH. f_equal. destruct e as [x c i n|]; [|reflexivity]. destruct c as [c|c]; [reflexivity|].
  cbn. now destruct c.
Qed.

Lemma no_reward_calls Y t0 n0 log n now : net_run Y t0 n0 log n now ->
  forall y p a w, ~ WAccepted y (WStaking (KReward p a)) w ∈ world_log log.
Proof.
  induction 1 as [Hs|log n now now' H IH H1 H2|log n now x c inputs n' H IH Ht Hb Hr|log n now x c e H IH Ht Hb Hr];
    intros y p a w Hin.
  - now apply elem_of_nil in Hin.
  - now apply IH in Hin.
  - unfold world_log in Hin. rewrite flat_map_app in Hin. apply elem_of_app in Hin as [Hin|Hin]; [now apply IH in Hin|].
    cbn [flat_map] in Hin. rewrite app_nil_r in Hin. destruct c as [c|c]; cbn in Hin; [now apply elem_of_nil in Hin|].
    apply elem_of_list_singleton in Hin. injection Hin as _ Hc _. subst c. discriminate.
  - unfold world_log in Hin. rewrite flat_map_app in Hin. apply elem_of_app in Hin as [Hin|Hin]; [now apply IH in Hin|].
    now apply elem_of_nil in Hin.
Qed.

Lemma stk_view Y lg g k : net_addresses_ok Y -> List.filter (not_vapp Y) g = world_log lg ->
  Forall (fun e => not_vapp Y e = true \/ vapp_does Y e) g ->
  (forall y p a w, ~ WAccepted y (WStaking (KReward p a)) w ∈ world_log lg) ->
  stk_calls (net_gov Y) k = gov_calls (net_gov Y) g -> Forall (no_governor_reward (net_gov Y)) k ->
  calls_of_others Y k = staking_calls lg /\ Forall (vapp_only_rewards Y) k.
Proof.
  intros Ha Fg Vg Hrew Ck Gk. destruct (addresses_differ Y Ha) as (?&?&?&?&?&?).
  assert (Hcalls : calls_of_others Y k = List.filter (fun p => negb (fst p =? ne_vapp Y)) (stk_calls (net_gov Y) k)).
  { clear. unfold calls_of_others, stk_calls. induction k as [|e k IH]; [reflexivity|]. cbn [flat_map].
    rewrite List.filter_app, IH. f_equal. destruct e as [x c evs s| |]; try reflexivity. cbn.
    destruct (kx_sender x =? ne_vapp Y) eqn:E1, (kx_sender x =? ne_governor Y) eqn:E2; cbn; rewrite ?E1; reflexivity. }
  split.
  - rewrite Hcalls, Ck, calls_filter by (intros e He; rewrite Forall_forall in Vg; now apply Vg).
    rewrite Fg. apply world_calls.
  - (* calls by the settlement contract *)
    assert (Hall : forall x c, (x, c) ∈ stk_calls (net_gov Y) k ->
      match c with KReward _ _ => x = ne_vapp Y | _ => x <> ne_vapp Y end).
    { rewrite Ck. clear -Vg Fg Hrew. intros x c Hin. unfold gov_calls in Hin. apply elem_of_list_In, in_flat_map in Hin as (e & He & Hin).
      apply elem_of_list_In in He. rewrite Forall_forall in Vg.
      destruct e as [y wc w|]; [|now apply elem_of_list_In, elem_of_nil in Hin].
      destruct wc as [c0|o|d|via la d|via la d|via i f|la d others]; cbn in Hin; try contradiction.
      destruct Hin as [Hin|[]]. injection Hin as <- <-. destruct (Vg _ He) as [Hn|Hd].
      - cbn in Hn. apply negb_true_iff, N.eqb_neq in Hn. destruct c0; try exact Hn.
        (* a reward in the log of the world *)
        assert (Hw : WAccepted y (WStaking (KReward p amount)) w ∈ world_log lg).
        { rewrite <- Fg. apply elem_of_list_In, filter_In. split; [now apply elem_of_list_In|]. cbn.
          apply negb_true_iff. now apply N.eqb_neq. }
        exfalso. eapply Hrew; eassumption.
      - cbn in Hd. destruct c0; try contradiction. exact Hd. }
    apply Forall_forall. intros e He. destruct e as [x c evs s| |]; try exact I.
    rewrite Forall_forall in Gk. pose proof (Gk _ He) as Hg1. cbn in Hg1.
    destruct (N.eqb_spec (kx_sender x) (ne_governor Y)) as [Heq|Hne].
    + cbn. rewrite Heq in *. destruct c; intuition congruence.
    + specialize (Hall (kx_sender x) c). cbn. assert (Hin : (kx_sender x, c) ∈ stk_calls (net_gov Y) k).
      { apply elem_of_list_In, in_flat_map. exists (KAccepted x c evs s). split; [now apply elem_of_list_In|].
        cbn. rewrite (proj2 (N.eqb_neq _ _) Hne). now left. }
      apply Hall in Hin. destruct c; exact Hin.
Qed.

Lemma net_stk_run Y t0 n0 log n now : net_run Y t0 n0 log n now ->
  exists klog, stk_run (net_staking Y) klog (w_staking (nw_world n)) /\
    calls_of_others Y klog = staking_calls log /\
    Forall (vapp_only_rewards Y) klog /\
    rewards klog = flat_map (entry_rewards Y) log.
Proof.
  intros H. pose proof (net_addresses _ _ _ _ _ _ H) as Ha.
  destruct (net_gov_run _ _ _ _ _ _ H) as (g & Hg & Fg & Vg & Rg).
  destruct (gov_stk _ _ _ _ _ _ Hg) as (k & Hk & Ck & Rk & Gk). exists k. split; [exact Hk|].
  destruct (stk_view Y log g k Ha Fg Vg (no_reward_calls _ _ _ _ _ _ H) Ck Gk) as [H1 H2].
  split; [exact H1|]. split; [exact H2|]. rewrite Rk. exact Rg.
Qed.

(** ** A part of a log *)

Definition gov_last (w0 : world) (log : list gov_entry) : world :=
  fold_left (fun w e => match e with WAccepted _ _ w' => w' | _ => w end) log w0.
Lemma gov_state G t0 w0 log w now : gov_run G t0 w0 log w now -> w = gov_last w0 log.
Proof. induction 1; unfold gov_last in *; rewrite ?fold_left_app; auto. Qed.
Definition net_last (n0 : network) (log : list net_entry) : network :=
  fold_left (fun n e => match e with NAccepted _ _ _ n' => n' | _ => n end) log n0.
Lemma net_state Y t0 n0 log n now : net_run Y t0 n0 log n now -> n = net_last n0 log.
Proof. induction 1; unfold net_last in *; rewrite ?fold_left_app; auto. Qed.

(** What the staking contract sees of a world call that a run allows. *)
Lemma gov_stk_more G t0 w0 log2 w' now' : gov_run G t0 w0 log2 w' now' ->
  forall log l w now, log2 = log ++ l -> gov_run G t0 w0 log w now ->
  exists klog, stk_history (ge_staking G) (w_staking w) klog (w_staking w') /\ Forall (by_outsider (ge_staking G)) klog /\
    stk_calls G klog = gov_calls G l /\ Forall (no_governor_reward G) klog.
Proof.
  intros H2. assert (Hst : gov_start G t0 w0) by (clear -H2; induction H2; assumption).
  destruct Hst as [_ [Hg0 Hg] _ _ _].
  induction H2 as [Hs|log2 w2 now2 now' H IH H1 H2|log2 w2 now2 x c w' H IH Hti Hby Hrun|log2 w2 now2 x c e H IH Hti Hby Hrun];
    intros log l w now Heq Hw.
  - symmetry in Heq. apply app_eq_nil in Heq as [-> ->]. apply gov_state in Hw as ->. exists []. repeat constructor.
  - eapply IH; eassumption.
  - destruct l as [|e l _] using rev_ind.
    + rewrite app_nil_r in Heq. subst log. apply gov_state in Hw as ->. unfold gov_last. rewrite fold_left_app. cbn.
      exists []. repeat constructor.
    + rewrite app_assoc in Heq. apply app_inj_tail in Heq as [Heq <-].
      destruct (IH log l w now Heq Hw) as (k & K1 & K2 & K3 & K5).
      destruct (world_stk G w2 x c w' Hg0 Hg Hby Hrun) as (m & L1 & L2 & L3).
      exists (k ++ m). split; [eapply stk_app; eassumption|]. split; [now apply Forall_app|].
      assert (stk_calls G m = gov_calls G [WAccepted x c w'] /\ Forall (no_governor_reward G) m) as (E1 & E3).
      { destruct c as [c|o|d|via la d|via la d|via i f|la d others]; cbn [stk_part] in L3;
          try (apply by_governor_calls in L3 as (-> & _ & L3); now repeat split).
        destruct L3 as (z & evs & s & -> & Hz). cbn.
        assert (Hne : kx_sender z <> ge_self G) by (rewrite Hz; apply Hby).
        rewrite (proj2 (N.eqb_neq _ _) Hne), Hz. split; [reflexivity|].
        apply Forall_singleton. cbn. destruct c; try exact I. exact Hne. }
      unfold stk_calls, gov_calls in *. rewrite !flat_map_app, K3, E1. split; [reflexivity|now apply Forall_app].
  - destruct l as [|e0 l _] using rev_ind.
    + rewrite app_nil_r in Heq. subst log. apply gov_state in Hw as ->. unfold gov_last. rewrite fold_left_app. cbn.
      apply gov_state in H. unfold gov_last in H. rewrite <- H. exists []. repeat constructor.
    + rewrite app_assoc in Heq. apply app_inj_tail in Heq as [Heq <-].
      destruct (IH log l w now Heq Hw) as (k & K1 & K2 & K3 & K5). exists k. split; [exact K1|]. split; [exact K2|].
      unfold gov_calls in *. rewrite flat_map_app. cbn. rewrite app_nil_r. auto.
Qed.

(** What the staking contract sees of a part of a log. *)
Lemma net_stk_more Y t0 n0 log2 n' now' : net_run Y t0 n0 log2 n' now' ->
  forall log l n now, log2 = log ++ l -> net_run Y t0 n0 log n now ->
  exists klog, stk_history (net_staking Y) (w_staking (nw_world n)) klog (w_staking (nw_world n')) /\
    Forall (by_outsider (net_staking Y)) klog /\ calls_of_others Y klog = staking_calls l /\ Forall (vapp_only_rewards Y) klog.
Proof.
  intros H2. pose proof (net_addresses _ _ _ _ _ _ H2) as Ha.
  induction H2 as [Hs|log2 n2 now2 now' H IH H1 H2|log2 n2 now2 x c i n' H IH Ht Hb Hr|log2 n2 now2 x c e H IH Ht Hb Hr];
    intros log l n now Heq Hn.
  - symmetry in Heq. apply app_eq_nil in Heq as [-> ->]. apply net_state in Hn as ->. exists []. repeat constructor.
  - eapply IH; eassumption.
  - destruct l as [|e l _] using rev_ind.
    + rewrite app_nil_r in Heq. subst log. apply net_state in Hn as ->. unfold net_last. rewrite fold_left_app. cbn.
      exists []. repeat constructor.
    + rewrite app_assoc in Heq. apply app_inj_tail in Heq as [Heq <-].
      destruct (IH log l n now Heq Hn) as (k & K1 & K2 & K3 & K4).
      destruct (net_gov_run _ _ _ _ _ _ H) as (g & Hg & _).
      destruct (call_ext Y Ha n2 x c i n' Hb Hr) as (gl & Hl & Fl & Vl & _). rewrite Ht in Hl.
      destruct (gov_stk_more _ _ _ _ _ _ (Hl _ _ _ Hg) g gl _ _ eq_refl Hg) as (m & M1 & M2 & M3 & M4).
      assert (Hw : world_log [NAccepted x c i n'] = world_entry (NAccepted x c i n')) by (unfold world_log; cbn [flat_map]; apply app_nil_r).
      destruct (stk_view Y [NAccepted x c i n'] gl m Ha) as [V1 V2]; [now rewrite Hw| exact Vl| |exact M3|exact M4|].
      { rewrite Hw. intros y p a w Hin. destruct c as [c|c]; cbn in Hin; [now apply elem_of_nil in Hin|].
        apply elem_of_list_singleton in Hin. injection Hin as _ Hc _. subst c. discriminate. }
      exists (k ++ m). split; [eapply stk_app; eassumption|]. split; [now apply Forall_app|].
      unfold calls_of_others, staking_calls in *. rewrite !flat_map_app, K3, V1. split; [reflexivity|now apply Forall_app].
  - destruct l as [|e0 l _] using rev_ind.
    + rewrite app_nil_r in Heq. subst log. apply net_state in Hn as ->. unfold net_last. rewrite fold_left_app. cbn.
      apply net_state in H. unfold net_last in H. rewrite <- H. exists []. repeat constructor.
    + rewrite app_assoc in Heq. apply app_inj_tail in Heq as [Heq <-].
      destruct (IH log l n now Heq Hn) as (k & K1 & K2 & K3 & K4). exists k. split; [exact K1|]. split; [exact K2|].
      unfold staking_calls in *. rewrite flat_map_app. cbn. rewrite app_nil_r. auto.
Qed.

(** ** No prover is slashed *)

Definition unslashed (s : staking) : Prop := sk_slashes s = ∅ /\ rg_deactivated (sk_registry s) = ∅.

Lemma unslashed_step K x c s s' evs : match c with KRequestSlash _ _ => kx_sender x <> ke_vapp K | _ => True end ->
  staking_run K x c s = Ok (s', evs) -> unslashed s -> unslashed s'.
Proof.
  intros Hx H [Hs Hd]. destruct c; cbn [staking_run] in H.
  - apply stake_call_ok in H as (t & _ & _ & H); apply stake_for_ok in H as (_ & _ & _ & _ & _ & ? & ? & ? & ? & _ & _ & _ & _ & _ & _ & -> & _).
    unfold unslashed. sk_simpl. now destruct (_ =? 0).
  - apply permit_stake_ok in H as (t1 & t & _ & _ & _ & H); apply stake_for_ok in H as (_ & _ & _ & _ & _ & ? & ? & ? & ? & _ & _ & _ & _ & _ & _ & -> & _).
    unfold unslashed. sk_simpl. now destruct (_ =? 0).
  - apply request_unstake_ok in H; cbv zeta in H; destruct H as (_ & _ & _ & _ & _ & b2 & e & _ & -> & _). split; assumption.
  - apply finish_unstake_ok in H; cbv zeta in H;
    destruct H as (_ & _ & _ & done & left & pool & b & _ & _ & _ & _ & ->). destruct (_ && (length left =? 0)%nat); split; assumption.
  - apply request_slash_ok in H as (H & _). contradiction.
  - apply cancel_slash_ok in H as (c & Hc & _). unfold slashes_of in Hc. rewrite Hs, lookup_empty in Hc. cbn in Hc.
    rewrite lookup_nil in Hc. discriminate.
  - apply finish_slash_ok in H; cbv zeta in H; destruct H as (c & d & burned & Hc & _). unfold slashes_of in Hc.
    rewrite Hs, lookup_empty in Hc. cbn in Hc. rewrite lookup_nil in Hc. discriminate.
  - apply dispense_ok in H as (av & t & _ & _ & _ & _ & _ & -> & _). split; assumption.
  - unfold k_set_dispenser in H. sk_inv. subst. split; assumption.
  - unfold k_update_rate in H. sk_inv. subst. split; assumption.
  - unfold k_create_prover in H. cbv zeta in H. sk_inv. subst. split; assumption.
  - apply reward_ok in H as (_ & _ & b & sh & _ & ->). split; assumption.
  - unfold k_transfer_ownership in H. sk_inv. subst. split; assumption.
  - unfold k_renounce_ownership in H. sk_inv. subst. split; assumption.
Qed.

Lemma stk_unslashed K log s : stk_run K log s ->
  Forall (fun e => match e with KAccepted x (KRequestSlash _ _) _ _ => kx_sender x <> ke_vapp K | _ => True end) log ->
  unslashed s.
Proof.
  intros [_ (pr & ow & go & pa & di & s0 & _ & Hi & Hh) _] Hf.
  assert (unslashed s0) as H0.
  { unfold staking_initialize in Hi. destruct (forallb _ _); [|discriminate]. injection Hi as <-. split; reflexivity. }
  clear Hi. induction Hh as [s|s x c s1 evs log s' Hr Hh IH|s x c e log s' Hr Hh IH|s o t log s' Hr Hh IH];
    [assumption|apply Forall_cons in Hf as [He Hf]..].
  - apply IH; [assumption|]. eapply unslashed_step; [|exact Hr|exact H0]. now destruct c.
  - now apply IH.
  - now apply IH.
Qed.

Lemma net_unslashed Y t0 n0 log n now : net_run Y t0 n0 log n now -> unslashed (w_staking (nw_world n)).
Proof.
  intros H. destruct (net_stk_run _ _ _ _ _ _ H) as (k & Hk & _ & Vk & _). eapply stk_unslashed; [exact Hk|].
  eapply Forall_impl; [exact Vk|]. intros [x c evs s| |]; try exact (fun _ => I). destruct c; try exact (fun _ => I). exact (fun h => h).
Qed.

Lemma unslashed_history K s log s' : stk_history K s log s' -> unslashed s ->
  Forall (fun e => match e with KAccepted x (KRequestSlash _ _) _ _ => kx_sender x <> ke_vapp K | _ => True end) log ->
  forall p, Forall (no_slash_of p) log.
Proof.
  induction 1 as [s|s x c s1 evs log s' Hr Hh IH|s x c e log s' Hr Hh IH|s o t log s' Hr Hh IH]; intros Hu Hf p;
    [constructor|apply Forall_cons in Hf as [He Hf]..]; constructor; try exact I.
  - destruct c; try exact I. cbn [staking_run] in Hr. destruct Hu as [Hs _].
    apply finish_slash_ok in Hr; cbv zeta in Hr; destruct Hr as (c & d & burned & Hc & _). unfold slashes_of in Hc.
    rewrite Hs, lookup_empty in Hc. cbn in Hc. rewrite lookup_nil in Hc. discriminate.
  - apply IH; [|exact Hf]. eapply unslashed_step; [|exact Hr|exact Hu]. now destruct c.
  - now apply IH.
  - now apply IH.
Qed.

Lemma net_staked Y t0 n0 log n now log' n' now' a v v' :
  net_run Y t0 n0 log n now -> net_run Y t0 n0 (log ++ log') n' now' ->
  a <> ne_governor Y -> (forall amount, ~ (a, KRequestUnstake amount) ∈ staking_calls log') ->
  staked (net_staking Y) a (w_staking (nw_world n)) = Ok v -> staked (net_staking Y) a (w_staking (nw_world n')) = Ok v' -> v <= v'.
Proof.
  intros H H' Hg Hno Hv Hv'. destruct (net_stk_more _ _ _ _ _ _ H' _ _ _ _ eq_refl H) as (k & K1 & K2 & K3 & K4).
  destruct (net_stk_run _ _ _ _ _ _ H) as (k0 & Hk0 & _).
  eapply (staked_mono (net_staking Y) _ k _ a); [exact K1|exact (inv_run _ _ _ Hk0)|exact K2| | |exact Hv|exact Hv'].
  - apply Forall_forall. intros e He. destruct e as [x c evs s| |]; try exact I. destruct c as [| |u| | | | | | | | | | |]; try exact I. cbn. intros Hx.
    apply (Hno u). rewrite <- K3. apply elem_of_list_In, in_flat_map. eexists. split; [apply elem_of_list_In; exact He|].
    cbn. rewrite Forall_forall in K4. specialize (K4 _ He). cbn in K4.
    rewrite (proj2 (N.eqb_neq _ _) K4), Hx, (proj2 (N.eqb_neq _ _) Hg). now left.
  - eapply unslashed_history; [exact K1|eapply net_unslashed; exact H|].
    eapply Forall_impl; [exact K4|]. intros [x c evs s| |]; try exact (fun _ => I). destruct c; try exact (fun _ => I). exact (fun h => h).
Qed.
