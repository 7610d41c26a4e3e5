(** Proofs of the properties of the contracts together. *)
From Verif Require Import StakingFacts StakingViews Proofs_Views Proofs_L1 Proofs_Governor.
From Verif Require Export NetworkValue.
From Coq Require Import Lia ZifyBool ZifyN ZifyNat.
Open Scope N_scope.

(** ** Deployment *)

Lemma C82_deploys_proof Y P prove t : (exists n, atomic_deploy Y P prove t = Some n) <-> params_ok Y P.
Proof.
  unfold atomic_deploy, governor_start, l1_initialize, staking_initialize, params_ok.
  cbn [forallb net_l1 le_iprove net_staking ke_vapp ke_iprove ke_max_requests ke_unstake_period ke_cancel_period va_prove].
  change two256 with (2 ^ 256). rewrite !andb_true_r. split.
  - intros [n H]. destruct (_ && (dy_threshold P <? _)) eqn:E1 in H; [|discriminate].
    destruct (_ || _) eqn:E2 in H; [discriminate|]. destruct (negb _ && _) eqn:E3 in H; [|discriminate]. clear H.
    rewrite !andb_true_iff, ?negb_true_iff, ?N.eqb_neq, ?N.leb_le, ?N.ltb_lt in E1.
    rewrite !orb_false_iff, !N.eqb_neq in E2. rewrite !andb_true_iff, !negb_true_iff, !N.eqb_neq in E3.
    repeat match goal with H : _ /\ _ |- _ => destruct H end.
    split; [|auto]. cbn [In]. intros Hin. repeat destruct Hin as [Hin|Hin]; contradiction.
  - intros (H & H1 & H2 & H3 & H4).
    assert (Hz : forall z, In z [dy_owner P; dy_prove P; dy_auctioneer P; dy_verifier P; dy_vkey P; dy_genesis P; dy_dispenser P;
          dy_period P; ne_staking Y; ne_vapp Y; ne_iprove Y; ne_governor Y; ne_max_requests Y; ne_unstake_period Y;
          ne_cancel_period Y] -> (z =? 0) = false).
    { intros z Hz. apply N.eqb_neq. intros ->. exact (H Hz). }
    apply N.leb_le in H1. apply N.ltb_lt in H2, H3, H4. rewrite H1, H2, H3, H4.
    rewrite !Hz by (cbn [In]; repeat (first [left; reflexivity|right])). cbn [negb andb orb]. eauto.
Qed.

Lemma C82_deployed_proof Y P prove t n : ne_staking Y <> ne_vapp Y -> atomic_deploy Y P prove t = Some n -> as_deployed Y P prove t n.
Proof.
  intros Hne. unfold atomic_deploy, governor_start, l1_initialize, staking_initialize.
  destruct (_ && _) eqn:E1; [|discriminate]. destruct (_ || _) eqn:E2; [discriminate|].
  destruct (forallb _ _) eqn:E3; [|discriminate]. intros [= <-]. constructor; cbn; try (repeat split; reflexivity).
  - intros a. split; [reflexivity|]. split; [reflexivity|]. split; [apply not_elem_of_empty|reflexivity].
  - intros a b. unfold tk_allowance, prove_of, tk_approve. cbn.
    destruct (N.eqb_spec a (ne_staking Y)) as [->|H1]; cbn.
    + destruct (N.eqb_spec b (ne_iprove Y)) as [->|H2]; cbn; [now rewrite lookup_insert|].
      rewrite !lookup_insert_ne by congruence. reflexivity.
    + rewrite lookup_insert_ne by congruence. destruct (N.eqb_spec a (ne_vapp Y)) as [->|H2]; cbn; [|now rewrite lookup_insert_ne by congruence].
      destruct (N.eqb_spec b (ne_iprove Y)) as [->|H3]; cbn; [now rewrite lookup_insert|now rewrite lookup_insert_ne by congruence].
Qed.

(** ** Rewards are the withdrawals of provers *)

Lemma net_rewards Y t0 n0 log n now : net_run Y t0 n0 log n now -> Forall keeps_staking log ->
  flat_map (entry_rewards Y) log = all_prover_withdrawals Y log.
Proof.
  induction 1 as [Hs|log n now now' H IH H1 H2|log n now x c i n' H IH Ht Hb Hr|log n now x c e H IH Ht Hb Hr]; intros Hk.
  - reflexivity.
  - now apply IH.
  - pose proof (net_kept _ _ _ _ _ _ (nr_accepted _ _ _ _ _ _ _ _ i _ H Ht Hb Hr) Hk) as Hst.
    apply Forall_app in Hk as [Hk _]. unfold all_prover_withdrawals in *. rewrite !flat_map_app, (IH Hk). f_equal. cbn [flat_map].
    rewrite !app_nil_r. destruct c as [c|c]; [|reflexivity]. destruct c; try reflexivity. cbn. unfold prover_withdrawals, paid_as_rewards.
    destruct (ne_decode Y public_values) as [p|]; [|reflexivity]. rewrite (kept_sees Y x n' Hst). reflexivity.
  - apply Forall_app in Hk as [Hk _]. unfold all_prover_withdrawals in *. rewrite !flat_map_app, (IH Hk). reflexivity.
Qed.

Lemma C82_staking_proof Y t0 n0 log n now :
  forall (Hrun : net_run Y t0 n0 log n now),
  exists klog, stk_run (net_staking Y) klog (w_staking (nw_world n)) /\
    calls_of_others Y klog = staking_calls log /\ Forall (vapp_only_rewards Y) klog /\
    (Forall keeps_staking log -> rewards klog = all_prover_withdrawals Y log).
Proof.
  intros H. destruct (net_stk_run _ _ _ _ _ _ H) as (k & H1 & H2 & H3 & H4). exists k. repeat (split; [assumption|]).
  intros Hk. rewrite H4. eapply net_rewards; eassumption.
Qed.

(** ** What is owed is there *)

Lemma list_total_filter {X} (f : X -> N) (q : X -> bool) l :
  list_total f l = list_total f (List.filter q l) + list_total f (List.filter (fun x => negb (q x)) l).
Proof.
  induction l as [|x l IH]; [reflexivity|]. cbn [List.filter]. destruct (q x); cbn [negb]; rewrite !list_total_cons, ?IH; lia.
Qed.
Lemma grouped {X} (f : X -> N) (g : N -> N) (key : X -> N) ps : NoDup ps -> forall l, Forall (fun x => key x ∈ ps \/ f x = 0) l ->
  (forall p, list_total f (List.filter (fun x => key x =? p) l) <= g p) -> list_total f l <= list_total g ps.
Proof.
  induction 1 as [|p ps Hp Hn IH]; intros l Hl Hg.
  - rewrite list_total_nil. assert (list_total f l = 0); [|lia]. clear Hg. induction Hl as [|x l [Hx|Hx] _ IHl].
    + reflexivity.
    + now apply elem_of_nil in Hx.
    + rewrite list_total_cons. lia.
  - rewrite (list_total_filter f (fun x => key x =? p)), list_total_cons. pose proof (Hg p) as H1.
    assert (list_total f (List.filter (fun x => negb (key x =? p)) l) <= list_total g ps); [|lia].
    apply IH.
    + apply Forall_forall. intros x Hx. apply elem_of_list_In, filter_In in Hx as [Hx Hne]. apply negb_true_iff, N.eqb_neq in Hne.
      rewrite Forall_forall in Hl. apply elem_of_list_In in Hx. destruct (Hl x Hx) as [Hk|Hk]; [|now right].
      left. apply elem_of_cons in Hk as [Hk|Hk]; [contradiction|exact Hk].
    + intros q. etransitivity; [|exact (Hg q)]. clear. induction l as [|x l IHl]; [reflexivity|]. cbn [List.filter].
      destruct (key x =? p); cbn [negb List.filter]; destruct (key x =? q); rewrite ?list_total_cons; lia.
Qed.

Lemma stakers_backed K log s stakers values : stk_run K log s -> NoDup stakers ->
  Forall2 (fun a v => staked K a s = Ok v) stakers values ->
  list_total (fun v => v) values + iprove_worth K s (tk_balance (bk_iprove (sk_bank s)) (ke_self K))
  <= tk_balance (bk_prove (sk_bank s)) (ke_iprove K).
Proof.
  intros Hr Hn Ha. pose proof (inv_run K log s Hr) as Hinv.
  rewrite (answers_total _ _ _ _ (fun a v => staked_value K s a v Hinv) Ha).
  set (ps := elements (rg_provers (sk_registry s))).
  assert (Hps : NoDup (ke_self K :: ps)).
  { constructor; [|apply NoDup_elements]. intros Hin. apply elem_of_elements, (ki_provers K s Hinv) in Hin. tauto. }
  pose proof (provers_covered K s _ Hinv Hps) as Hc. rewrite list_total_cons in Hc. unfold i_assets in Hc.
  assert (list_total (fun a => iprove_worth K s (share_worth s (bound_to s a) (stake_of (sk_bank s) a))) stakers
    <= list_total (fun p => iprove_worth K s (tk_balance (bk_iprove (sk_bank s)) p)) ps); [|lia].
  apply (grouped _ _ (bound_to s)); [apply NoDup_elements| |].
  - apply Forall_forall. intros a _. destruct (N.eq_dec (bound_to s a) 0) as [E|E].
    + right. destruct (ki_unbound K s Hinv a E) as [-> _]. apply worth_zero.
    + left. apply elem_of_elements. now apply (ki_bound K s Hinv).
  - intros p. rewrite <- (stakes_covered K s p (List.filter (fun a => bound_to s a =? p) stakers) Hinv).
    + apply list_total_le. intros a Hin. apply elem_of_list_In, filter_In in Hin as [_ Hin]. apply N.eqb_eq in Hin. now rewrite Hin.
    + apply NoDup_ListNoDup, List.NoDup_filter, NoDup_ListNoDup. exact Hn.
    + apply Forall_forall. intros a Hin. apply elem_of_list_In, filter_In in Hin as [_ Hin]. now apply N.eqb_eq in Hin.
Qed.

Lemma C83_backed_proof E sha verify domain Y t0 n0 log n now stakers values :
  forall (Hrun : sound_run E sha verify domain Y t0 n0 log n now)
    (Hhash : collision_free (keccak E) (log_strings E (full_new E domain) (settlement Y log)))
    (Hdistinct : NoDup stakers)
    (Hanswers : Forall2 (fun a v => staked (net_staking Y) a (w_staking (nw_world n)) = Ok v) stakers values),
  let ledger := ledger_after E (full_new E domain) (settlement Y log) in
  let prove := tk_balance (prove_of (nw_world n)) in
  ne_vapp Y <> ne_iprove Y /\ va_root (nw_vapp n) = full_root E ledger /\
  total_balance (accounts ledger) + pending_deposits (created (settlement Y log)) (finalised (net_l1 Y) (settlement Y log))
    <= prove (ne_vapp Y) /\
  list_total (fun v => v) values <= prove (ne_iprove Y).
Proof.
  intros Hr Hc Hn Ha. cbv zeta. destruct (sound_settled _ _ _ _ _ _ _ _ _ _ Hr) as (l & Hl & Fl).
  pose proof (C32_solvent_proof E (net_l1 Y) sha verify domain _ l (vapp_of n) Hl) as Hs. cbv zeta in Hs.
  rewrite <- calls_strings, Fl in Hs. specialize (Hs Hc). rewrite <- calls_ledger, <- calls_created, <- calls_finalised, Fl in Hs.
  pose proof (sn_run _ _ _ _ _ _ _ _ _ _ Hr) as Hrun. destruct (addresses_differ Y (net_addresses _ _ _ _ _ _ Hrun)) as (?&?&?&?&?&?).
  split; [congruence|]. split; [exact (proj1 Hs)|]. split; [exact (proj2 Hs)|].
  destruct (net_stk_run _ _ _ _ _ _ Hrun) as (k & Hk & _). pose proof (stakers_backed _ _ _ _ _ Hk Hn Ha) as Hb.
  cbn in Hb. unfold prove_of. lia.
Qed.

(** ** Steps *)

Lemma C85_honest_step_proof E sha verify domain Y t0 n0 log n now x p proof inputs :
  forall (Hrun : sound_run E sha verify domain Y t0 n0 log n now) (Hstaking : Forall keeps_staking log)
    (Hhash : collision_free (keccak E) (log_strings E (full_new E domain)
       (settlement Y log ++ [LAccepted (l1_ctx_of Y x n) (CStep (abi_step p) proof) inputs])))
    (Hmade : made_from E sha verify inputs (abi_step p))
    (Hallowed : step_allowed (net_l1 Y) (l1_ctx_of Y x n) (abi_step p) proof p (nw_vapp n))
    (Hnow : nx_time x = now) (Hblocks : va_block (nw_vapp n) + 1 < 2 ^ 64)
    (Hqueue : N.of_nat (length (created (settlement Y log))) < 2 ^ 64 - 1)
    (Hcopied : Forall (from_queue (created (settlement Y log))) (all_txs inputs))
    (Hreceivers : Forall (fun r => forall account amount, sr_variant r = VWithdraw ->
       withdrawal (sr_action r) = Some (account, amount) -> account <> 0) (pv_receipts p))
    (Hsupply : tk_balance (prove_of (nw_world n)) (ne_iprove Y) + tk_balance (prove_of (nw_world n)) (ne_vapp Y) < 2 ^ 208),
  exists n', net_run_call Y x (CVApp (CStep (abi_step p) proof)) n = Ok n'.
Proof.
  intros Hr Hk Hc Hm Hal Ht Hb Hq Hf Hre Hs. destruct (sound_settled _ _ _ _ _ _ _ _ _ _ Hr) as (l & Hl & Fl).
  pose proof (sn_run _ _ _ _ _ _ _ _ _ _ Hr) as Hrun. pose proof (net_addresses _ _ _ _ _ _ Hrun) as Ha.
  destruct (C45_honest_step_accepted_proof E (net_l1 Y) sha verify domain _ l (vapp_of n) (l1_ctx_of Y x n) p proof inputs Hl)
    as [v' Hv].
  - rewrite <- calls_strings, List.filter_app, Fl. exact Hc.
  - exact Hm.
  - destruct Hal. constructor; assumption.
  - exact Hb.
  - now rewrite <- calls_created, Fl.
  - now rewrite <- calls_created, Fl.
  - eapply Forall_impl; [exact Hre|]. intros r Hx account amount H1 H2. split; [eapply Hx; eassumption|]. intros _. reflexivity.
  - apply transact_ok in Hv. cbn [l1_run net_run_call] in *. destruct (net_gov_run _ _ _ _ _ _ Hrun) as (g & Hg & _).
    eapply (step_live Y Ha x); [rewrite Ht; exact Hg|eapply net_kept; eassumption|exact Hs|exact Hv].
Qed.

(** ** No slashes *)

Lemma C86_no_slash_proof Y t0 n0 log n now :
  forall (Hrun : net_run Y t0 n0 log n now),
  (forall p, slashes_of (w_staking (nw_world n)) p = [] /\ is_deactivated (w_staking (nw_world n)) p = false) /\
  (forall x p k, net_acts Y n (nx_sender x) ->
     forall c, In c [KRequestSlash p k; KCancelSlash p k; KFinishSlash p k] ->
     exists e, net_run_call Y x (CWorld (WStaking c)) n = Err e).
Proof.
  intros H. destruct (net_unslashed _ _ _ _ _ _ H) as [Hs Hd]. split.
  - intros p. unfold slashes_of, is_deactivated. rewrite Hs, Hd, lookup_empty. split; [reflexivity|].
    apply bool_decide_eq_false, not_elem_of_empty.
  - intros x p k Ha c Hc. destruct (net_run_call Y x _ n) as [n'|e] eqn:E; [exfalso|eauto].
    assert (exists s evs, staking_run (net_staking Y) (ctx_in (nw_world n) (world_ctx (nx_sender x) x false)) c (w_staking (nw_world n)) = Ok (s, evs)) as (s & evs & Hr).
    { destruct Hc as [<-|[<-|[<-|[]]]]; cbn [net_run_call] in E; unfold on_world in E; destruct (world_run _ _ _ _) as [w|] eqn:Ew in E;
        try discriminate; cbn [world_run] in Ew; unfold staking_step in Ew; cbn [net_gov ge_staking] in Ew;
        destruct (staking_run _ _ _ _) as [[s evs]|] eqn:Es in Ew; try discriminate; eauto. }
    destruct Ha as (_ & _ & _ & _ & Hv & _).
    destruct Hc as [<-|[<-|[<-|[]]]]; cbn [staking_run] in Hr.
    + apply request_slash_ok in Hr as (Hr & _). cbn in Hr. contradiction.
    + apply cancel_slash_ok in Hr as (c & Hc & _). unfold slashes_of in Hc. rewrite Hs, lookup_empty in Hc. cbn in Hc.
      rewrite lookup_nil in Hc. discriminate.
    + apply finish_slash_ok in Hr; cbv zeta in Hr; destruct Hr as (c & d & burned & Hc & _). unfold slashes_of in Hc.
      rewrite Hs, lookup_empty in Hc. cbn in Hc. rewrite lookup_nil in Hc. discriminate.
Qed.

(** ** Creating provers *)

Lemma C84_create_proof Y t0 n0 log n now x bips :
  forall (Hrun : net_run Y t0 n0 log n now) (Hstaking : Forall keeps_staking log) (Hnow : nx_time x = now)
    (Hby : net_acts Y n (nx_sender x)),
  (exists n', net_run_call Y x (CWorld (WStaking (KCreateProver bips))) n = Ok n') <->
  bips <= 10000 /\ prover_of n (nx_sender x) = 0 /\ va_paused (nw_vapp n) = false /\
  va_current (nw_vapp n) + 1 < 2 ^ 64 /\
  ~ ne_create2 Y (nx_sender x) ((rg_count (sk_registry (w_staking (nw_world n))) + 1) mod 2 ^ 256) bips
      ∈ rg_provers (sk_registry (w_staking (nw_world n))).
Proof.
  intros H Hk Ht Ha. pose proof (net_kept _ _ _ _ _ _ H Hk) as Hst. cbn [net_run_call].
  assert (Hreg : (exists v, register_prover Y x bips n = Ok v) <-> va_paused (nw_vapp n) = false /\ va_current (nw_vapp n) + 1 < 2 ^ 64).
  { unfold register_prover, l1_create_prover. cbn [cx_sender cx_owner_of]. unfold vapp_of, va_set_prove at 1. cbn [va_staking].
    rewrite Hst, !N.eqb_refl. destruct Ha as (H0 & _). rewrite (proj2 (N.eqb_neq _ _) H0). cbn [negb l1_require l1_bind].
    unfold create_transaction, l1_succ, va_set_prove. cbn [va_paused va_current]. change two64 with (2 ^ 64).
    destruct (va_paused (nw_vapp n)); cbn [negb l1_require l1_bind]; [split; [intros [v Hv]; discriminate|intros [Hv _]; discriminate]|].
    destruct (N.ltb_spec (va_current (nw_vapp n) + 1) (2 ^ 64)) as [Hlt|Hge]; cbn [l1_bind]; [split; eauto|].
    split; [intros [v Hv]; discriminate|lia]. }
  unfold prover_of. fold (new_prover Y x bips n). change (2 ^ 256) with two256. fold (new_prover Y x bips n). split.
  - intros [n' Hn]. apply created_prover in Hn as (Hr & _ & _ & Hb & Ho & Hnew & _).
    split; [exact Hb|]. split; [exact Ho|]. assert (Hx : exists v, register_prover Y x bips n = Ok v) by eauto.
    apply Hreg in Hx as [H1 H2]. auto.
  - intros (Hb & Ho & Hp & Hc & Hnew). destruct (proj2 Hreg (conj Hp Hc)) as [v Hv].
    unfold net_create_prover. rewrite Hv.
    destruct (net_gov_run _ _ _ _ _ _ H) as (g & Hg & _).
    assert (Hby : by_anyone (net_gov Y) (nw_world n) (world_ctx (nx_sender x) x true) (WStaking (KCreateProver bips))).
    { destruct Ha as (A1 & A2 & A3 & A4 & A5 & A6). split; [|exact I]. unfold acts, outside. cbn. auto. }
    pose proof (C79_unimpeded_proof _ _ _ _ _ _ (world_ctx (nx_sender x) x true) (KCreateProver bips) Hg Ht Hby) as Hu.
    cbn [staking_run] in Hu. unfold k_create_prover in Hu. cbn [kx_sender kx_vapp_accepts world_ctx] in Hu.
    destruct (N.ltb_spec 10000 bips) as [Hx|_]; [lia|]. cbn [negb sk_require sk_bind] in Hu.
    rewrite Ho in Hu. cbn [N.eqb sk_require sk_bind] in Hu.
    change (ke_create2 (ge_staking (net_gov Y)) (nx_sender x)
      ((rg_count (sk_registry (w_staking (nw_world n))) + 1) mod two256) bips) with (new_prover Y x bips n) in Hu.
    unfold is_prover in Hu. rewrite (bool_decide_eq_false_2 _ Hnew) in Hu. cbn [negb sk_require sk_bind] in Hu.
    destruct Hu as [vv Hu]. unfold on_world. rewrite Hu. cbn [net_bind]. eauto.
Qed.

(** ** Which calls are accepted *)

Lemma actions_token Y x l t : forall v v', vapp_actions Y x l v = Ok v' ->
  vapp_actions Y x l (va_set_prove t v) = Ok (va_set_prove t v').
Proof.
  induction l as [|a l IH]; intros v v' H; cbn [vapp_actions] in *; [now injection H as <-|].
  destruct a as [c|m|m|m|m|o|c|m]; try (exact (IH v v' H)).
  destruct c; try discriminate; (destruct (l1_run _ _ _ _) as [v1|] eqn:E1 in H; [|discriminate];
    apply (owner_token _ _ _ _ _ t) in E1; [|exact I]; rewrite E1; exact (IH v1 v' H)).
Qed.
Lemma actions_settle Y x l : forall v v', vapp_actions Y x l v = Ok v' <-> proposal_settles Y x l v v'.
Proof.
  induction l as [|a l IH]; intros v v'; cbn [vapp_actions].
  - split; [intros H; injection H as <-; constructor|intros H; inversion H; reflexivity].
  - assert (Ho : match a with GaVApp _ => False | _ => True end ->
      (vapp_actions Y x l v = Ok v' <-> proposal_settles Y x (a :: l) v v')).
    { intros Ha. rewrite IH. split; [intros H; now constructor|]. intros H. inversion H; subst; [contradiction|assumption]. }
    destruct a as [c|m|m|m|m|o|c|m]; try (exact (Ho I)). clear Ho.
    assert (Hc : match c with CFork _ _ | CAdmin _ => True | _ => False end ->
      (l1_bind (l1_run (net_l1 Y) (seen_from_governor Y x) c v) (fun v1 => vapp_actions Y x l v1) = Ok v' <->
       proposal_settles Y x (GaVApp c :: l) v v')).
    { intros Hc. split.
      - intros H. destruct (l1_run _ _ _ _) as [v1|] eqn:E1 in H; [|discriminate]. cbn [l1_bind] in H. apply IH in H.
        eapply ps_call; [exact Hc|unfold l1_transact; now rewrite E1|exact H].
      - intros H. inversion H as [|c0 l0 w w1 w' _ Hr Hs|a0 l0 w w' Hn _]; subst; [|contradiction]. unfold l1_transact in Hr.
        destruct (l1_run _ _ _ _) as [v1|]; [|discriminate]. injection Hr as <-. cbn [l1_bind]. now apply IH. }
    destruct c; try (exact (Hc I)); (split; [discriminate|]; intros H; inversion H; subst; contradiction).
Qed.

Lemma C82_accepts_proof Y x c n :
  let seen accepts := StakingCtx (nx_sender x) (nx_time x) 0 0 (nx_permit_valid x) accepts in
  match c with
  | CVApp (CStep _ _) | CWorld (WStaking (KCreateProver _)) => True
  | CWorld (WStaking (KReward _ _)) => exists e, net_run_call Y x c n = Err e
  | CVApp c1 => (exists n', net_run_call Y x c n = Ok n') <->
      exists v, l1_transact (net_l1 Y) (l1_ctx_of Y x n) c1 (vapp_of n) = (v, None)
  | CWorld (WExecute actions desc others) => (exists n', net_run_call Y x c n = Ok n') <->
      Forall (fun a => match a with GaStaking (KCreateProver _) => False | _ => True end) actions /\
      (exists v, proposal_settles Y x actions (vapp_of n) v) /\
      exists w, world_run (net_gov Y) (seen true) (WExecute actions desc others) (nw_world n) = Ok w
  | CWorld c1 => (exists n', net_run_call Y x c n = Ok n') <->
      exists w, world_run (net_gov Y) (seen false) c1 (nw_world n) = Ok w
  end.
Proof.
  cbv zeta.
  assert (Hv : forall c1, (exists n', on_vapp (l1_run (net_l1 Y) (l1_ctx_of Y x n) c1) n = Ok n') <->
    exists v, l1_transact (net_l1 Y) (l1_ctx_of Y x n) c1 (vapp_of n) = (v, None)).
  { intros c1. unfold on_vapp, l1_transact. destruct (l1_run _ _ _ _) as [v|e]; split; intros [y Hy]; try discriminate; eauto. }
  assert (Hw : forall c1, (exists n', on_world Y (world_ctx (nx_sender x) x false) c1 n = Ok n') <->
    exists w, world_run (net_gov Y) (StakingCtx (nx_sender x) (nx_time x) 0 0 (nx_permit_valid x) false) c1 (nw_world n) = Ok w).
  { intros c1. unfold on_world, world_ctx. destruct (world_run _ _ _ _) as [w|e]; split; intros [y Hy]; try discriminate; eauto. }
  destruct c as [c|c]; destruct c; try exact I; try apply Hv; try apply Hw.
  - destruct c; try exact I; try apply Hw. cbn. eauto.
  - assert (Hcr : existsb creates_prover actions = false <->
      Forall (fun a => match a with GaStaking (KCreateProver _) => False | _ => True end) actions).
    { clear. induction actions as [|a l IH]; cbn [existsb]; [split; [constructor|reflexivity]|].
      rewrite orb_false_iff, Forall_cons, IH. assert (creates_prover a = false <->
        match a with GaStaking (KCreateProver _) => False | _ => True end) as ->; [|reflexivity].
      destruct a as [[]| | | | | | |]; cbn; split; auto; try discriminate; contradiction. }
    rewrite <- Hcr. cbn [net_run_call]. split.
    + intros [n' H]. apply executed in H as (H1 & H2 & H3). split; [exact H1|]. split; [|eauto].
      apply (actions_token Y x actions (prove_of (nw_world n))) in H2. apply actions_settle in H2. unfold vapp_of. eauto.
    + intros (H1 & [v H2] & [w H3]). apply actions_settle in H2. unfold net_execute. rewrite H1.
      apply (actions_token Y x actions (va_prove (nw_vapp n))) in H2. unfold vapp_of in H2.
      rewrite set_prove_twice, set_own_prove in H2. cbv zeta. rewrite H2. unfold on_world, world_ctx. rewrite H3. cbn. eauto.
Qed.

Lemma C82_governance_proof Y t0 n0 log n now :
  forall (Hrun : net_run Y t0 n0 log n now),
  exists glog, gov_run (net_gov Y) t0 (nw_world n0) glog (nw_world n) now /\
    List.filter (not_vapp Y) glog = world_log log /\
    Forall (fun e => not_vapp Y e = true \/ vapp_does Y e) glog.
Proof. intros H. destruct (net_gov_run _ _ _ _ _ _ H) as (g & H1 & H2 & H3 & _). eauto. Qed.
