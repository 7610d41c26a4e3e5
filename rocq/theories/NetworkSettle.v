(** The contracts together: the log as the settlement contract sees it. *)
From Verif Require Export NetworkRun.
From Verif Require Import StakingUnstake StakingBank GovernorFacts GovernorRun L1Facts L1Solvent L1Live.
From Coq Require Import Lia ZifyBool ZifyN ZifyNat.
Open Scope N_scope.

Lemma history_app L v l v1 l' v' : l1_history L v l v1 -> l1_history L v1 l' v' -> l1_history L v (l ++ l') v'.
Proof.
  intros H H'. induction H; cbn; [assumption|..].
  - eapply lh_accepted; eauto.
  - eapply lh_reverted; eauto.
  - eapply lh_token; eauto.
Qed.

Lemma set_prove_twice t t' v : va_set_prove t (va_set_prove t' v) = va_set_prove t v.
Proof. now destruct v. Qed.
Lemma set_own_prove v : va_set_prove (va_prove v) v = v.
Proof. now destruct v. Qed.

Lemma path_history Y t t' : token_path (foreign Y) t t' -> forall v, va_prove v = t ->
  exists l, l1_history (net_l1 Y) v l (va_set_prove t' v) /\ List.filter is_call l = [] /\
    Forall (own_actions (net_l1 Y)) l.
Proof.
  induction 1 as [t|t o t1 t' Ho Hr Hp IH]; intros v Hv.
  - exists []. subst t. rewrite set_own_prove. repeat constructor.
  - destruct (IH (va_set_prove t1 v) eq_refl) as (l & Hl & Fl & Ol). exists (LToken o :: l).
    rewrite set_prove_twice in Hl. split; [|split; [exact Fl|constructor; assumption]].
    eapply lh_token; [rewrite Hv; exact Hr|exact Hl].
Qed.

Section Settle.
Context (Y : net_env) (Ha : net_addresses_ok Y).

Definition step_ctx (x : net_ctx) (q : N -> bool) : l1_ctx :=
  L1Ctx (nx_sender x) (nx_time x) q (nx_owner_of x) (fun _ _ => true) (nx_permit_valid x).

Lemma withdraw_settle x to amount n n' : net_withdraw Y x to amount n = Ok n' ->
  process_withdraw (net_l1 Y) (step_ctx x (sees_prover Y x n)) to amount (vapp_of n) = Ok (vapp_of n') /\
  sees_prover Y x n' = sees_prover Y x n.
Proof using.
  unfold net_withdraw, on_world, process_withdraw. intros H. cbn [cx_is_prover step_ctx].
  destruct (sees_prover Y x n to); (destruct (world_run _ _ _ _) as [w|] eqn:Ew in H; [|discriminate]); injection H as <-;
    cbn [world_run] in Ew.
  - unfold staking_step in Ew. destruct (staking_run _ _ _ _) as [[s evs]|] eqn:Es; [|discriminate].
    cbn [staking_run] in Es. apply reward_ok in Es as (_ & _ & b & sh & Hd & ->).
    apply i_deposit_ok in Hd as (t & Ht & <- & _).
    gov_inv. split.
    + cbn in Ht. unfold vapp_of, prove_of. cbn. rewrite Ht. cbn. now rewrite set_prove_twice.
    + apply sees_same; reflexivity.
  - unfold token_step in Ew. destruct (run_token_op _ _) as [t|] eqn:Et; [|discriminate]. gov_inv. split.
    + cbn in Et. unfold vapp_of, prove_of. cbn. rewrite Et. cbn. now rewrite set_prove_twice.
    + apply sees_same; reflexivity.
Qed.

Lemma receipts_settle x q rs : forall n n', sees_prover Y x n = q -> net_receipts Y x rs n = Ok n' ->
  handle_receipts (net_l1 Y) (step_ctx x q) rs (vapp_of n) = Ok (vapp_of n') /\ sees_prover Y x n' = q.
Proof using.
  induction rs as [|r rs IH]; intros n n' Hq H; cbn [net_receipts handle_receipts] in *.
  - injection H as <-. auto.
  - destruct (if negb _ then _ else _) as [n1|] eqn:E1 in H; [|discriminate]. cbn [net_bind] in H.
    assert ((if negb (sr_tx_id r =? u64_max) then handle_onchain_receipt r (vapp_of n)
             else handle_offchain_receipt (net_l1 Y) (step_ctx x q) r (vapp_of n)) = Ok (vapp_of n1) /\
            sees_prover Y x n1 = q) as [-> Hq1].
    { destruct (negb _).
      - apply on_vapp_same in E1 as (Hh & Hw & ->); [|intros v v'; apply onchain_token]. split; [exact Hh|].
        rewrite <- Hq. apply sees_same; [|now rewrite Hw].
        apply onchain_settings in Hh. unfold settings in Hh. injection Hh as _ _ _ _ Hs _ _. exact Hs.
      - unfold net_offchain_receipt in E1. unfold handle_offchain_receipt. destruct (sr_status r); try discriminate.
        + destruct (sr_variant r); try discriminate. destruct (l1_decode_withdraw _) as [a|]; [|discriminate].
          cbn [l1_bind]. apply withdraw_settle in E1. rewrite Hq in E1. exact E1.
        + injection E1 as <-. auto. }
    cbn [l1_bind]. apply IH; assumption.
Qed.

Lemma step_settle x pv pf n n' : net_step Y x pv pf n = Ok n' ->
  l1_run (net_l1 Y) (l1_ctx_of Y x n') (CStep pv pf) (vapp_of n) = Ok (vapp_of n') /\
  sees_prover Y x n' = sees_prover Y x n.
Proof using.
  unfold net_step. intros H. destruct (ne_decode Y pv) as [p|] eqn:Ed; [|discriminate].
  destruct (on_vapp _ _) as [n1|] eqn:E1 in H; [|discriminate]. cbn [net_bind] in H.
  apply on_vapp_same in E1 as (Ho & Hw & Hv); [|intros v v'; apply open_block_token].
  assert (Hs1 : sees_prover Y x n1 = sees_prover Y x n).
  { apply sees_same; [|now rewrite Hw]. unfold open_block in Ho. l1_inv.
    match goal with H : _ = nw_vapp n1 |- _ => rewrite <- H end. reflexivity. }
  apply (receipts_settle x _ _ _ _ Hs1) in H as [Hh Hq]. split; [|exact Hq].
  unfold l1_ctx_of. rewrite Hq. fold (step_ctx x (sees_prover Y x n)). rewrite Hv in Hh.
  cbn [l1_run]. unfold l1_step. unfold open_block in Ho. cbn [l1_ctx_of cx_sender cx_time step_ctx] in *.
  cbn [le_decode net_l1]. rewrite Ed.
  repeat match type of Ho with
  | l1_bind ?m _ = Ok _ => destruct m; [cbn [l1_bind] in Ho |- *|discriminate]
  end.
  injection Ho as Ho. rewrite Ho. exact Hh.
Qed.

Lemma quiet_ctx L x x' c v : match c with CStep _ _ => False | _ => True end ->
  cx_sender x' = cx_sender x -> cx_time x' = cx_time x -> cx_owner_of x' = cx_owner_of x ->
  cx_permit_valid x' = cx_permit_valid x -> l1_run L x' c v = l1_run L x c v.
Proof using.
  intros Hc H1 H2 H3 H4. destruct c; try contradiction; cbn [l1_run].
  - unfold l1_deposit. now rewrite H1.
  - unfold l1_permit_and_deposit. now rewrite H4.
  - unfold l1_create_prover. now rewrite H1, H3.
  - unfold l1_fork. now rewrite H1, H2.
  - unfold l1_admin. now rewrite H1.
Qed.

Lemma created_prover x bips n n' : net_create_prover Y x bips n = Ok n' ->
  register_prover Y x bips n = Ok (nw_vapp n') /\ prover_of n' (nx_sender x) = new_prover Y x bips n /\
  prove_of (nw_world n') = prove_of (nw_world n) /\ bips <= 10000 /\
  default 0 (rg_owners (sk_registry (w_staking (nw_world n))) !! nx_sender x) = 0 /\
  ~ new_prover Y x bips n ∈ rg_provers (sk_registry (w_staking (nw_world n))) /\
  rg_provers (sk_registry (w_staking (nw_world n'))) =
    {[new_prover Y x bips n]} ∪ rg_provers (sk_registry (w_staking (nw_world n))) /\
  rg_owners (sk_registry (w_staking (nw_world n'))) =
    <[nx_sender x := new_prover Y x bips n]> (rg_owners (sk_registry (w_staking (nw_world n)))).
Proof using.
  unfold net_create_prover. intros H.
  destruct (register_prover Y x bips n) as [v|] eqn:Er; [|destruct (on_world _ _ _ _); discriminate].
  unfold on_world in H. destruct (world_run _ _ _ _) as [w|] eqn:Ew in H; [|discriminate]. cbn in H. injection H as <-.
  cbn [nw_vapp nw_world]. split; [reflexivity|].
  cbn [world_run] in Ew. unfold staking_step in Ew. destruct (staking_run _ _ _ _) as [[s evs]|] eqn:Es; [|discriminate].
  apply registry_step in Es. destruct Es as [_ _ _ Hf|b m Hb Hle Hno Hm Hnew Hs]; [contradiction|]. injection Hb as <-.
  assert (w_staking w = s) as Hws by (gov_inv; reflexivity). clear Ew.
  unfold prover_of, new_prover, prove_of in *. cbn [nw_world]. rewrite Hws. subst s. cbn in *. subst m.
  rewrite lookup_insert. auto 10.
Qed.

Lemma vapp_call n x c n' : net_run_call Y x (CVApp c) n = Ok n' ->
  l1_run (net_l1 Y) (l1_ctx_of Y x n') c (vapp_of n) = Ok (vapp_of n').
Proof using Ha.
  intros H. destruct c; cbn [net_run_call] in H; try (now apply step_settle in H as [H _]).
  all: rewrite (quiet_ctx _ (l1_ctx_of Y x n)) by (exact I || reflexivity).
  all: unfold on_vapp in H; destruct (l1_run _ _ _ _) as [v|] eqn:Ev in H; [|discriminate]; injection H as <-.
  all: rewrite Ev; unfold vapp_of, prove_of; cbn; now rewrite set_own_prove.
Qed.

(** The calls of an executed proposal. *)
Lemma owner_token L x c v v' t : match c with CFork _ _ | CAdmin _ => True | _ => False end ->
  l1_run L x c v = Ok v' -> l1_run L x c (va_set_prove t v) = Ok (va_set_prove t v').
Proof using.
  intros Hc H. destruct c as [| | | |k r|a]; try contradiction; cbn [l1_run] in *.
  - unfold l1_fork in *. change (va_owner (va_set_prove t v)) with (va_owner v). change (va_block (va_set_prove t v)) with (va_block v).
    destruct (l1_require _ _); [cbn [l1_bind] in *|discriminate]. destruct (l1_require _ _); [cbn [l1_bind] in *|discriminate].
    destruct (l1_succ _); [cbn [l1_bind] in *|discriminate]. injection H as <-. reflexivity.
  - unfold l1_admin in *. change (va_owner (va_set_prove t v)) with (va_owner v).
    destruct (l1_require _ _); [cbn [l1_bind] in *|discriminate]. cbv zeta in *.
    change (va_paused (va_set_prove t v)) with (va_paused v).
    destruct a; repeat match type of H with context [if ?b then _ else _] => destruct b end; try discriminate;
      injection H as <-; reflexivity.
Qed.
Lemma actions_history x t l : forall v v', vapp_actions Y x l v = Ok v' ->
  l1_history (net_l1 Y) (va_set_prove t v) (flat_map (governor_entry Y x) l) (va_set_prove t v') /\
  List.filter is_call (flat_map (governor_entry Y x) l) = flat_map (governor_entry Y x) l /\
  Forall (own_actions (net_l1 Y)) (flat_map (governor_entry Y x) l) /\ va_prove v' = va_prove v.
Proof using.
  induction l as [|a l IH]; intros v v' H; cbn [vapp_actions] in H.
  - injection H as <-. repeat split; constructor.
  - destruct a as [c|m|m|m|m|o|c|m]; try (exact (IH v v' H)).
    assert (Hc : match c with CFork _ _ | CAdmin _ => True | _ => False end) by (destruct c; try exact I; discriminate).
    assert (exists v1, l1_run (net_l1 Y) (seen_from_governor Y x) c v = Ok v1 /\ vapp_actions Y x l v1 = Ok v') as (v1 & H1 & H2).
    { destruct c; try discriminate; (destruct (l1_run _ _ _ _) as [v1|] eqn:E1 in H; [|discriminate]); exists v1; split; assumption. }
    destruct (IH _ _ H2) as (I1 & I2 & I3 & I4). cbn [flat_map governor_entry app]. split; [|split; [|split]].
    + eapply lh_accepted; [|exact I1]. unfold l1_transact. now rewrite (owner_token _ _ _ _ _ t Hc H1).
    + cbn. now rewrite I2.
    + constructor; [|exact I3]. destruct c; try contradiction; exact I.
    + rewrite I4. apply quiet_token in H1; [exact H1|]. destruct c; try contradiction; exact I.
Qed.

Lemma call_settle n x c inputs n' : net_by_anyone Y n x c -> net_run_call Y x c n = Ok n' ->
  exists l, l1_history (net_l1 Y) (vapp_of n) l (vapp_of n') /\
    List.filter is_call l = settlement_entry Y (NAccepted x c inputs n') /\
    Forall (own_actions (net_l1 Y)) l.
Proof using Ha.
  intros Hby H. destruct c as [c|c].
  - exists [LAccepted (l1_ctx_of Y x n') c inputs]. split; [|split; [reflexivity|]].
    + eapply lh_accepted; [|constructor]. unfold l1_transact.
      now rewrite (vapp_call n x c n' H).
    + apply Forall_singleton. destruct Hby as [(_ & _ & _ & _ & Hs & _) Hc]. destruct c; cbn in *; auto.
      intros Hp. now apply Hc.
  - destruct (match c with WStaking (KCreateProver _) => true | _ => false end) eqn:Ec.
    + destruct c as [c|o|d|via l d|via l d|via i f|l d others]; try discriminate. destruct c; try discriminate.
      cbn [net_run_call] in H. apply created_prover in H as (Hr & Hp & Hpr & _).
      exists (settlement_entry Y (NAccepted x (CWorld (WStaking (KCreateProver bips))) inputs n')).
      split; [|split; [reflexivity|apply Forall_singleton; exact I]]. cbn [settlement_entry].
      eapply lh_accepted; [|constructor]. unfold l1_transact. rewrite Hp. cbn [l1_run].
      assert (l1_create_prover (L1Ctx (ne_staking Y) (nx_time x) (nx_elsewhere x) (fun _ => nx_sender x) (fun _ _ => true)
        (nx_permit_valid x)) (new_prover Y x bips n) (nx_sender x) bips (vapp_of n) = Ok (nw_vapp n')) as ->.
      { unfold register_prover, l1_create_prover in Hr. unfold l1_create_prover. cbn [cx_sender cx_owner_of] in *.
        rewrite N.eqb_refl in Hr. exact Hr. }
      f_equal. unfold vapp_of at 1. rewrite Hpr. unfold register_prover in Hr.
      apply quiet_token with (L := net_l1 Y) (c := CCreateProver (new_prover Y x bips n) (nx_sender x) bips) in Hr; [|exact I].
      cbn in Hr. rewrite <- Hr. now rewrite set_own_prove.
    + assert (exists y, world_run (net_gov Y) y c (nw_world n) = Ok (nw_world n') /\
        match c with WExecute l _ _ => vapp_actions Y x l (nw_vapp n) = Ok (nw_vapp n') | _ => nw_vapp n' = nw_vapp n end /\
        match c with WStaking (KReward _ _) => False | _ => True end) as (y & Hr & Hv & Hc).
      { destruct c as [c|o|d|via l d|via l d|via i f|l d others]; cbn [net_run_call] in H;
          try (unfold on_world in H; destruct (world_run _ _ _ _) as [w|] eqn:Ew in H; [|discriminate]; injection H as <-; eauto).
        - destruct c; try discriminate;
            (unfold on_world in H; destruct (world_run _ _ _ _) as [w|] eqn:Ew in H; [|discriminate]; injection H as <-; eauto).
        - apply executed in H as (_ & Hv & Hr). eauto. }
      eapply (world_path Y Ha n x y) in Hr; [|eassumption..].
      destruct (path_history Y _ _ Hr (vapp_of n) eq_refl) as (l & Hl & Fl & Ol).
      unfold vapp_of in *. rewrite set_prove_twice in Hl.
      destruct c as [c|o|d|via l0 d|via l0 d|via i f|l0 d others];
        try (exists l; rewrite Hv; split; [exact Hl|split; [rewrite Fl; reflexivity|exact Ol]]).
      * exists l. rewrite Hv. split; [exact Hl|split; [rewrite Fl|exact Ol]]. destruct c; try reflexivity. discriminate.
      * destruct (actions_history x (prove_of (nw_world n')) l0 _ _ Hv) as (A1 & A2 & A3 & _).
        exists (l ++ flat_map (governor_entry Y x) l0). split; [eapply history_app; eassumption|]. split; [|now apply Forall_app].
        rewrite List.filter_app, Fl, A2. reflexivity.
Qed.
End Settle.

Lemma net_start_history Y t0 n0 : net_start Y t0 n0 ->
  exists l, l1_history (net_l1 Y) (nw_vapp n0) l (vapp_of n0) /\ List.filter is_call l = [] /\
    Forall (own_actions (net_l1 Y)) l.
Proof.
  intros [Ha Ht (P & prove & Hal & Hd)]. destruct (addresses_differ Y Ha) as (?&?&?&?&?&?).
  unfold atomic_deploy in Hd. destruct (governor_start _ _ _ _ _) as [g|] eqn:Eg; [|discriminate].
  destruct (l1_initialize _ _ _ _ _ _ _ _ _ _) as [v|] eqn:El; [|discriminate].
  destruct (staking_initialize _ _ _ _ _ _) as [s|] eqn:Es; [|discriminate]. injection Hd as <-.
  unfold staking_initialize in Es. destruct (forallb _ _); [|discriminate]. injection Es as <-.
  exists [LToken (OApprove (ne_staking Y) (ne_iprove Y) u256_max)]. split; [|split; [reflexivity|]].
  - eapply lh_token; [reflexivity|]. constructor.
  - apply Forall_singleton. cbn. congruence.
Qed.

Lemma net_settled Y t0 n0 log n now : net_run Y t0 n0 log n now ->
  exists llog, l1_history (net_l1 Y) (nw_vapp n0) llog (vapp_of n) /\
    List.filter is_call llog = settlement Y log /\ Forall (own_actions (net_l1 Y)) llog.
Proof.
  intros H. pose proof (net_addresses _ _ _ _ _ _ H) as Ha.
  induction H as [Hs|log n now now' H IH H1 H2|log n now x c inputs n' H IH Ht Hb Hr|log n now x c e H IH Ht Hb Hr].
  - exact (net_start_history _ _ _ Hs).
  - exact IH.
  - destruct IH as (g & Hg & Fg & Og). destruct (call_settle Y Ha n x c inputs n' Hb Hr) as (l & Hl & Fl & Ol).
    exists (g ++ l). split; [eapply history_app; eassumption|]. split; [|now apply Forall_app].
    rewrite List.filter_app, Fg, Fl. unfold settlement. rewrite flat_map_app. cbn. now rewrite app_nil_r.
  - destruct IH as (g & Hg & Fg & Og). exists g. split; [assumption|]. split; [|assumption].
    rewrite Fg. unfold settlement. rewrite flat_map_app. cbn. now rewrite app_nil_r.
Qed.

(** ** The log of the settlement contract without calls of the token *)

Lemma calls_forall (P : l1_entry -> Prop) l : (forall o, P (LToken o)) -> Forall P (List.filter is_call l) -> Forall P l.
Proof.
  intros Ht. induction l as [|e l IH]; cbn; intros H; [constructor|].
  destruct e; cbn in *; try (apply Forall_cons in H as [? H]); constructor; auto.
Qed.
Lemma calls_ledger E l : forall s, ledger_after E s (List.filter is_call l) = ledger_after E s l.
Proof. induction l as [|e l IH]; intros s; [reflexivity|]. destruct e as [x c i|x c e|o]; cbn; [destruct c|..]; apply IH. Qed.
Lemma calls_strings E l : forall s, log_strings E s (List.filter is_call l) = log_strings E s l.
Proof. induction l as [|e l IH]; intros s; [reflexivity|]. destruct e as [x c i|x c e|o]; cbn; [destruct c|..]; now rewrite ?IH. Qed.
Lemma calls_created l : created (List.filter is_call l) = created l.
Proof. induction l as [|e l IH]; [reflexivity|]. unfold created in *. destruct e as [x c i|x c e|o]; cbn; now rewrite ?IH. Qed.
Lemma calls_finalised L l : finalised L (List.filter is_call l) = finalised L l.
Proof. induction l as [|e l IH]; [reflexivity|]. unfold finalised in *. destruct e as [x c i|x c e|o]; cbn; now rewrite ?IH. Qed.

Lemma sound_settled E sha verify domain Y t0 n0 log n now :
  sound_run E sha verify domain Y t0 n0 log n now ->
  exists llog, settled_run E (net_l1 Y) sha verify domain (nw_vapp n0) llog (vapp_of n) /\
    List.filter is_call llog = settlement Y log.
Proof.
  intros [H1 H2 H3 H4 H5 H6 H7 H8]. pose proof (net_addresses _ _ _ _ _ _ H4) as Ha.
  destruct (net_settled _ _ _ _ _ _ H4) as (l & Hl & Fl & Ol). exists l. split; [|exact Fl].
  rewrite <- Fl in H6, H7, H8. destruct (addresses_differ Y Ha) as (?&?&?&?&?&?). constructor; try assumption.
  - destruct Ha as [Hz _ _]. cbn in Hz. constructor; cbn; intuition congruence.
  - assert (Hs : net_start Y t0 n0) by (clear -H4; induction H4; assumption).
    destruct Hs as [_ _ (P & prove & Hal & Hd)].
    unfold atomic_deploy in Hd. destruct (governor_start _ _ _ _ _) as [g|] eqn:Eg; [|discriminate].
    destruct (l1_initialize _ _ _ _ _ _ _ _ _ _) as [v|] eqn:El; [|discriminate].
    destruct (staking_initialize _ _ _ _ _ _) as [s|] eqn:Es; [|discriminate]. injection Hd as <-.
    assert (va_root v = dy_genesis P) as Hg.
    { unfold l1_initialize in El. destruct (_ || _) in El; [discriminate|]. injection El as <-. reflexivity. }
    cbn [nw_vapp] in *. rewrite H5 in Hg. rewrite <- Hg in El. do 8 eexists. split; [exact El|].
    intros s0. apply Hal. cbn. auto.
  - apply calls_forall; [exact (fun _ => I)|assumption].
  - apply calls_forall; [exact (fun _ => I)|assumption].
  - apply calls_forall; [exact (fun _ => I)|assumption].
Qed.
