(** The invariant of governance. *)
From Verif Require Export VotesFacts GovernorSpec.
From Coq Require Import Lia ZifyBool ZifyN ZifyNat.
Open Scope N_scope.

Notation provers w := (rg_provers (sk_registry (w_staking w))).
Notation bank_of w := (sk_bank (w_staking w)).

(** What holds at every moment, also between the actions of a proposal. *)
Record ginv (G : gov_env) (now : N) (past : N -> N -> N) (past_supply past_quorum : N -> N) (w : world) : Prop := {
  gi_start : ge_self G <> 0 /\ outside (ge_staking G) (ge_self G);
  gi_time : 0 < now < 2 ^ 48;
  gi_stk : stk_inv (ge_staking G) (w_staking w);
  gi_holders : holders_ok (ge_staking G) (provers w) (bank_of w);
  gi_owners : owners_ok (w_staking w);
  gi_not_self : ~ ge_self G ∈ provers w;
  gi_create2 : forall o n f, ke_create2 (ge_staking G) o n f <> ge_self G;
  gi_votes : votes_ok (ge_staking G) now past past_supply (provers w) (bank_of w) (w_votes w);
  gi_delay : gv_delay (w_governor w) < 2 ^ 48;
  gi_period : gv_period (w_governor w) < 2 ^ 32 /\ gv_period (w_governor w) <> 0;
  gi_quorum_trace : trace (now + 1) (gv_quorum (w_governor w));
  gi_quorum : forall t, lookup_at t (gv_quorum (w_governor w))
    = if now <=? t then quorum_percent w else past_quorum t;
  gi_quorum_le : quorum_percent w <= 100
}.

Lemma clock_small now : now < 2 ^ 48 -> clock now = now.
Proof. intros H. unfold clock. now apply N.mod_small. Qed.

Lemma not_ends K s : stk_inv K s -> ~ 0 ∈ rg_provers (sk_registry s) /\ ~ ke_self K ∈ rg_provers (sk_registry s).
Proof.
  intros H. pose proof (ki_provers K s H) as Hp. split; intros Hin; destruct (Hp _ Hin) as (H1 & H2 & _); auto.
Qed.

(** A delegation by an account without $iPROVE moves no votes; a new prover delegates to itself. *)
Lemma delegate_new K now past ps P b v p :
  votes_ok K now past ps P b v -> p <> 0 -> p <> ke_self K -> ibal b p = 0 ->
  exists v', delegate now p p 0 v = Some v' /\ votes_ok K now past ps ({[p]} ∪ P) b v'.
Proof.
  intros [V1 V2 V3 V4 V5 V6 V7] Ha0 Has Hb. unfold delegate, move_votes. rewrite N.eqb_refl, orb_true_r.
  eexists. split; [reflexivity|]. split; unfold delegate_of; cbn [vt_delegates vt_total]; try assumption.
  - rewrite lookup_insert_ne by congruence. exact V1.
  - rewrite lookup_insert_ne by congruence. exact V2.
  - intros q Hq. destruct (N.eq_dec q p) as [->|Hne]; [now rewrite lookup_insert|].
    rewrite lookup_insert_ne by congruence. apply V3. apply elem_of_union in Hq as [Hq|Hq]; [|exact Hq].
    apply elem_of_singleton in Hq. contradiction.
  - intros t x. change (votes_trace _ x) with (votes_trace v x). rewrite V6. destruct (now <=? t); [|reflexivity].
    destruct (bool_decide (x ∈ P)) eqn:E1, (bool_decide (x ∈ {[p]} ∪ P)) eqn:E2;
      rewrite ?bool_decide_eq_true, ?bool_decide_eq_false in *; try reflexivity.
    + destruct E2. apply elem_of_union. auto.
    + apply elem_of_union in E2 as [E2|?]; [|contradiction]. apply elem_of_singleton in E2 as ->. now rewrite Hb.
Qed.
Lemma delegate_none K now past ps P b v a d :
  votes_ok K now past ps P b v -> a <> 0 -> a <> ke_self K -> ~ a ∈ P ->
  exists v', delegate now a d 0 v = Some v' /\ votes_ok K now past ps P b v' /\
    vt_votes v' = vt_votes v /\ vt_total v' = vt_total v.
Proof.
  intros [V1 V2 V3 V4 V5 V6 V7] Ha0 Has Hn. unfold delegate, move_votes. rewrite N.eqb_refl, orb_true_r.
  eexists. split; [reflexivity|]. split; [|split; reflexivity]. split; unfold delegate_of; cbn [vt_delegates vt_total]; try assumption.
  - rewrite lookup_insert_ne by congruence. exact V1.
  - rewrite lookup_insert_ne by congruence. exact V2.
  - intros q Hq. rewrite lookup_insert_ne by (intros ->; contradiction). exact (V3 q Hq).
Qed.

(** Calls of the staking contract succeed as if there were no votes. *)
Lemma staking_step_ok G now past ps pq x c w :
  ginv G now past ps pq w -> kx_time x = now -> outside (ge_staking G) (kx_sender x) -> no_permit_of_contracts G c ->
  match staking_run (ge_staking G) (ctx_in w x) c (w_staking w) with
  | Err e => staking_step G x c w = Err (GStaking e)
  | Ok (s, evs) => exists v, staking_step G x c w = Ok (World s v (w_governor w)) /\ ginv G now past ps pq (World s v (w_governor w))
  end.
Proof.
  intros Hg Ht Ho Hp. unfold staking_step. destruct (staking_run _ _ _ _) as [[s evs]|e] eqn:Hr; [|reflexivity].
  pose proof Hg as [Gs Gt Gk Gh Go Gn Gc Gv Gd Gp Gqt Gq Gql].
  assert (Hby : by_outsider (ge_staking G) (KAccepted (ctx_in w x) c evs s)) by (split; assumption).
  pose proof (call_moves_ok _ _ _ _ _ _ Gk Hby Hr) as Hm. pose proof (inv_call _ _ _ _ _ _ Gk Hby Hr) as Gk'.
  destruct (not_ends _ _ Gk) as [Hz Hs].
  rewrite (clock_small (kx_time x)) by lia. cbv zeta. rewrite Ht.
  destruct (vote_moves_ok _ now past ps _ _ _ _ Hz Hs Hm (w_votes w) Gv (ki_total _ _ Gk)) as (v & Ev & Hv).
  rewrite Ev. cbn [gv_option gv_bind].
  pose proof (holders_moves _ _ _ _ _ Hm Gh) as Hh.
  assert (Go' : owners_ok s).
  { eapply owners_step; [|exact Hr|exact Go]. intros p Hp'. apply (ki_provers _ _ Gk p Hp'). }
  assert (Hbase : rg_provers (sk_registry s) = provers w -> forall v1, v1 = v ->
    ginv G now past ps pq (World s v1 (w_governor w))).
  { intros E v1 ->. split; cbn [w_staking w_votes w_governor]; rewrite ?E; try assumption. }
  pose proof (registry_changes _ _ _ _ _ _ Hr) as Hreg.
  destruct c; try (exists v; split; [reflexivity|]; apply Hbase; [|reflexivity];
    destruct Hreg as [->|[(q & -> & _)|(q & bp & E & _)]]; [reflexivity|reflexivity|discriminate E]).
  cbn [staking_run] in Hr. apply create_prover_ok in Hr as (d & n & Hnew & -> & ->).
  cbn [kx_sender ctx_in] in Hnew. cbn [sk_set_registry sk_registry rg_count sk_bank].
  set (p := ke_create2 (ge_staking G) (kx_sender x) n bips) in *.
  destruct (sao_create2 _ (ki_addresses _ _ Gk) (kx_sender x) n bips) as (Hp0 & Hps & _).
  assert (Hb0 : ibal (bank_of w) p = 0) by (apply Gh; assumption).
  assert (E0 : tk_balance (bk_iprove (sk_bank (w_staking w))) p = 0) by exact Hb0. rewrite E0.
  destruct (delegate_new _ now past ps (provers w) (bank_of w) v p Hv Hp0 Hps Hb0) as (v' & Ev' & Hv').
  rewrite Ev'. cbn [gv_option gv_bind]. exists v'. split; [reflexivity|].
  split; cbn [w_staking w_votes w_governor sk_set_registry sk_registry sk_bank rg_provers]; try assumption.
  - intros y H1 H2. apply Gh; [exact H1|]. intros H3. apply H2. apply elem_of_union. auto.
  - rewrite elem_of_union, elem_of_singleton. intros [E|?]; [|contradiction]. unfold p in E. symmetry in E. exact (Gc _ _ _ E).
Qed.

Lemma token_step_ok G now past ps pq o w w' :
  ginv G now past ps pq w -> by_outsider (ge_staking G) (KTokenOp o) -> token_step o w = Ok w' ->
  ginv G now past ps pq w' /\ w_governor w' = w_governor w.
Proof.
  intros Hg Ho H. unfold token_step in H. destruct (run_token_op _ _) as [t|] eqn:Hr; [|discriminate].
  injection H as <-. pose proof Hg as [Gs Gt Gk Gh Go Gn Gc Gv Gd Gp Gqt Gq Gql].
  split; [|reflexivity]. split; cbn [w_staking w_votes w_governor]; try assumption.
  - apply inv_prove; [exact Gk|]. apply (token_op_inv _ _ o t Gk Ho Hr).
  - destruct Go as [O1 O2 O3]. split; assumption.
  - eapply votes_same; [|exact Gv]. split; reflexivity.
Qed.

(** Changing the governor. *)
Lemma ginv_governor G now past ps pq w g :
  ginv G now past ps pq w -> gv_delay g < 2 ^ 48 -> gv_period g < 2 ^ 32 /\ gv_period g <> 0 ->
  gv_quorum g = gv_quorum (w_governor w) -> ginv G now past ps pq (w_set_governor g w).
Proof.
  intros [] H1 H2 H3. split; cbn [w_set_governor w_staking w_votes w_governor]; try assumption.
  - rewrite H3. assumption.
  - unfold quorum_percent. cbn [w_set_governor w_governor]. rewrite H3. assumption.
  - unfold quorum_percent. cbn [w_set_governor w_governor]. rewrite H3. assumption.
Qed.

Ltac gov_inv :=
  repeat match goal with
  | H : gv_bind ?m _ = Ok _ |- _ => let E := fresh "E" in destruct m eqn:E; cbn [gv_bind] in H; [|discriminate H]
  | H : gv_require ?b _ = Ok _ |- _ => unfold gv_require in H; destruct b eqn:?; [clear H|discriminate H]
  | H : gv_option ?o _ = Ok _ |- _ => unfold gv_option in H; destruct o eqn:?; [first [injection H as <- | injection H as H]|discriminate H]
  | H : Ok _ = Ok _ |- _ => first [injection H as <- | injection H as H]
  | H : Err _ = Ok _ |- _ => discriminate H
  end.

Lemma by_outsider_governor G o b :
  outside (ge_staking G) (ge_self G) -> token_caller o = Some b -> b = ge_self G -> by_outsider (ge_staking G) (KTokenOp o).
Proof. intros H E ->. destruct o; cbn in *; try injection E as ->; auto. Qed.

Lemma run_action_ok G now past ps pq x others a w w' :
  ginv G now past ps pq w -> kx_time x = now ->
  match a with GaStaking c => no_permit_of_contracts G c | _ => True end ->
  run_action G x others a w = Ok w' ->
  ginv G now past ps pq w' /\ gv_proposals (w_governor w') = gv_proposals (w_governor w).
Proof.
  intros Hg Ht Hp H. pose proof Hg as [Gs Gt Gk Gh Go Gn Gc Gv Gd Gp Gqt Gq Gql].
  destruct a as [c|n|n|n|n|o|vc|target]; cbn [run_action] in H.
  - set (x' := StakingCtx _ _ _ _ _ _) in H.
    assert (Hst : staking_step G x' c w = Ok w') by (destruct c; try exact H; discriminate).
    pose proof (staking_step_ok G now past ps pq x' c w Hg Ht (proj2 Gs) Hp) as Hs.
    destruct (staking_run _ _ _ _) as [[s evs]|e]; [|congruence]. destruct Hs as (v & Ev & Hv).
    rewrite Ev in Hst. injection Hst as <-. split; [exact Hv|reflexivity].
  - gov_inv. split; [|reflexivity]. apply ginv_governor; cbn [gv_delay gv_period gv_quorum]; try assumption; [lia|reflexivity].
  - gov_inv. split; [|reflexivity]. apply ginv_governor; cbn [gv_delay gv_period gv_quorum]; try assumption; [lia|reflexivity].
  - gov_inv. split; [|reflexivity]. apply ginv_governor; cbn [gv_delay gv_period gv_quorum]; try assumption; reflexivity.
  - gov_inv. split; [|reflexivity].
    rewrite clock_small in * by lia. rewrite Ht in *.
    destruct (push_ok now n _ Gqt) as (l' & Hl & Htr & Hlk). 
    match goal with H : push _ _ _ = Some ?l |- _ => rewrite Hl in H; injection H as <- end.
    assert (El : latest l' = n) by (rewrite (latest_now now) by exact Htr; rewrite Hlk, N.leb_refl; reflexivity).
    split; unfold quorum_percent in *; cbn [w_set_governor w_staking w_votes w_governor gv_delay gv_period gv_quorum]; try assumption.
    + intros t. rewrite Hlk, Gq, El. now destruct (now <=? t).
    + lia.
  - gov_inv. destruct (token_caller o) as [b|] eqn:Eb; [|discriminate].
    destruct (token_step_ok G now past ps pq o w w' Hg) as [H1 H2]; [|exact H|].
    + eapply by_outsider_governor; [apply Gs|exact Eb|lia].
    + split; [exact H1|]. now rewrite H2.
  - gov_inv. split; [exact Hg|reflexivity].
  - gov_inv. split; [exact Hg|reflexivity].
Qed.

Lemma run_actions_ok G now past ps pq x others l : forall w w',
  ginv G now past ps pq w -> kx_time x = now ->
  Forall (fun a => match a with GaStaking c => no_permit_of_contracts G c | _ => True end) l ->
  run_actions G x others l w = Ok w' ->
  ginv G now past ps pq w' /\ gv_proposals (w_governor w') = gv_proposals (w_governor w).
Proof.
  induction l as [|a rest IH]; intros w w' Hg Ht Hf H; cbn [run_actions] in H.
  - injection H as <-. auto.
  - apply Forall_cons in Hf as [Ha Hf]. destruct (run_action G x others a w) as [w1|] eqn:E; cbn [gv_bind] in H; [|discriminate].
    destruct (run_action_ok _ _ _ _ _ _ _ _ _ _ Hg Ht Ha E) as [Hg1 E1].
    destruct (IH _ _ Hg1 Ht Hf H) as [Hg2 E2]. split; [exact Hg2|congruence].
Qed.

(** Every call. *)
Lemma world_run_ok G now past ps pq x c w w' :
  ginv G now past ps pq w -> kx_time x = now -> by_anyone G w x c -> world_run G x c w = Ok w' ->
  ginv G now past ps pq w'.
Proof.
  intros Hg Ht [(Ha0 & Ho & Hns & Hnp) Hc] H. pose proof Hg as [Gs Gt Gk Gh Go Gn Gc Gv Gd Gp Gqt Gq Gql].
  destruct c as [c|o|d|via actions desc|via actions desc|via id support|actions desc others]; cbn [world_run] in H.
  - pose proof (staking_step_ok G now past ps pq x c w Hg Ht Ho Hc) as Hs.
    destruct (staking_run _ _ _ _) as [[s evs]|e]; [|congruence]. destruct Hs as (v & Ev & Hv).
    rewrite Ev in H. injection H as <-. exact Hv.
  - eapply token_step_ok; eassumption.
  - rewrite clock_small in H by lia. rewrite Ht in H.
    assert (E0 : tk_balance (bk_iprove (sk_bank (w_staking w))) (kx_sender x) = 0) by (apply Gh; [apply Ho|exact Hnp]).
    rewrite E0 in H.
    destruct (delegate_none _ now past ps (provers w) (bank_of w) (w_votes w) (kx_sender x) d Gv Ha0 (proj1 Ho) Hnp) as (v' & Ev & Hv & _).
    rewrite Ev in H. cbn [gv_option gv_bind] in H. injection H as <-. split; assumption.
  - gov_inv. unfold propose in H. cbv zeta in H. gov_inv.
    apply ginv_governor; try assumption; reflexivity.
  - gov_inv. unfold cancel_proposal in H. cbv zeta in H. gov_inv. apply ginv_governor; try assumption; reflexivity.
  - gov_inv. unfold cast_vote in H. cbv zeta in H. gov_inv. apply ginv_governor; try assumption; reflexivity.
  - unfold execute_proposal in H. cbv zeta in H. gov_inv.
    eapply run_actions_ok; [|exact Ht|exact Hc|exact H]. apply ginv_governor; try assumption; reflexivity.
Qed.
