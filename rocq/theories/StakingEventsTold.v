(** The events of the staking contract tell its state. *)
From Verif Require Export StakingEventsFacts.
From Coq Require Import Lia ZifyBool ZifyN ZifyNat.
Open Scope N_scope.

(** ** Along a history *)

Lemma observed_history K s log logs s' : stk_observed K s log logs s' -> stk_history K s log s'.
Proof. induction 1; econstructor; eassumption. Qed.

Lemma history_observed K s log s' : stk_history K s log s' -> exists logs, stk_observed K s log logs s'.
Proof.
  induction 1 as [s|s x c s1 evs log s' Hr _ [logs IH]|s x c e log s' Hr _ [logs IH]|s o t log s' Hr _ [logs IH]].
  - eexists. constructor.
  - eexists. econstructor; eassumption.
  - eexists. econstructor; eassumption.
  - eexists. econstructor; eassumption.
Qed.

Lemma observed_once K s log logs s' : stk_observed K s log logs s' ->
  forall logs' s'', stk_observed K s log logs' s'' -> logs' = logs /\ s'' = s'.
Proof.
  induction 1 as [s|s x c s1 evs log logs s' Hr _ IH|s x c e log logs s' Hr _ IH|s o t log logs s' Hr _ IH]; intros l s'' H; inversion H; subst.
  - auto.
  - match goal with H : stk_observed K s1 log ?l2 _ |- _ => destruct (IH _ _ H) as [-> ->] end. auto.
  - now apply IH.
  - match goal with H : run_token_op _ o = Ok ?t2 |- _ => assert (t2 = t) as -> by congruence end. now apply IH.
Qed.

Lemma history_one_told K s log s' : stk_history K s log s' ->
  exists logs, stk_observed K s log logs s' /\
    forall logs' s'', stk_observed K s log logs' s'' -> logs' = logs /\ s'' = s'.
Proof. intros H. destruct (history_observed K s log s' H) as [logs Ho]. exists logs. split; [exact Ho|]. exact (observed_once K s log logs s' Ho). Qed.

Definition kept_by_tokens (P : list staking_log -> staking -> Prop) : Prop :=
  forall l s t, P l s -> P l (sk_set_bank (bk_set_prove t (sk_bank s)) s).
Definition kept_by_calls (K : staking_env) (P : list staking_log -> staking -> Prop) : Prop :=
  forall l s s' new, stk_inv K s -> stk_inv K s' -> effect K s s' new -> P l s -> P (l ++ new) s'.

Lemma observed_carries K P s log logs s' : kept_by_tokens P -> kept_by_calls K P ->
  stk_observed K s log logs s' -> stk_inv K s -> Forall (by_outsider K) log -> forall pre, P pre s -> P (pre ++ logs) s'.
Proof.
  intros Htoken Hcall.
  induction 1 as [s|s x c s1 evs log logs s' Hr _ IH|s x c e log logs s' Hr _ IH|s o t log logs s' Hr _ IH]; intros Hinv Ho pre Hp;
    inversion Ho; subst.
  - now rewrite app_nil_r.
  - rewrite app_assoc. assert (Hinv1 : stk_inv K s1) by (eapply inv_call; eassumption).
    apply IH; [exact Hinv1|assumption|]. apply (Hcall pre s s1); [exact Hinv|exact Hinv1| |exact Hp].
    now apply call_effect.
  - now apply IH.
  - apply IH; [|assumption|now apply Htoken].
    apply inv_prove; [exact Hinv|]. eapply token_op_inv; eassumption.
Qed.

Lemma told_carries K P d log logs s : kept_by_tokens P -> kept_by_calls K P ->
  (forall prove owner governor pa s0, staking_initialize K prove owner governor pa d = Some s0 ->
     P (staking_initialize_logs owner) s0) ->
  stk_told K d log logs s -> P logs s.
Proof.
  intros Htoken Hcall Hstart [HK (prove & owner & governor & pa & s0 & later & Ha & Hi & -> & Hh) Ho].
  eapply observed_carries; [exact Htoken|exact Hcall|exact Hh| |exact Ho|].
  - eapply initial_inv; eassumption.
  - eapply Hstart; eassumption.
Qed.

Lemma told_run K d log logs s : stk_told K d log logs s -> stk_run K log s.
Proof.
  intros [HK (prove & owner & governor & pa & s0 & later & Ha & Hi & _ & Hh) Ho]. split; [exact HK| |exact Ho].
  exists prove, owner, governor, pa, d, s0. split; [exact Ha|]. split; [exact Hi|]. eapply observed_history. exact Hh.
Qed.

Lemma run_told K log s : stk_run K log s -> exists d logs, stk_told K d log logs s.
Proof.
  intros [HK (prove & owner & governor & pa & d & s0 & Ha & Hi & Hh) Ho].
  destruct (history_observed K s0 log s Hh) as [logs Hl]. exists d, (staking_initialize_logs owner ++ logs).
  split; [exact HK| |exact Ho]. exists prove, owner, governor, pa, s0, logs. auto.
Qed.

Lemma initial_fields K prove owner governor pa d s0 : staking_initialize K prove owner governor pa d = Some s0 ->
  sk_owner s0 = owner /\ sk_registry s0 = Registry ∅ ∅ ∅ 0 /\ sk_dispensing s0 = Dispensing d 0 0 0 0 /\
  sk_bound s0 = ∅ /\ sk_claims s0 = ∅ /\ sk_slashes s0 = ∅ /\ sk_pending s0 = ∅ /\ sk_pools s0 = ∅ /\
  bk_stakes (sk_bank s0) = ∅ /\ bk_stsupply (sk_bank s0) = 0 /\ bk_iprove (sk_bank s0) = Token ∅ ∅.
Proof. unfold staking_initialize. destruct (forallb _ _); [|discriminate]. intros [= <-]. repeat split. Qed.

(** ** Lists of changes *)

Lemma connected_snoc a l b c : connected a l b -> connected a (l ++ [(b, c)]) c.
Proof. induction 1 as [a|a b l d _ IH]; cbn [app]; repeat constructor. exact IH. Qed.

Lemma connected_app a l b l' c : connected a l b -> connected b l' c -> connected a (l ++ l') c.
Proof. induction 1 as [a|a b l d _ IH]; cbn [app]; [auto|]. intros H. constructor. now apply IH. Qed.

Lemma connected_one a b : connected a [(a, b)] b.
Proof. repeat constructor. Qed.

Ltac logs_simpl :=
  rewrite ?omap_app, ?list_total_app; cbn [omap list_omap list_total fold_right];
  repeat progress cbn [owner_step dispenser_step rate_step dispensed binding_step received given staked_by unstaked_by claim_made claim_done
    deployed deactivation slash_asked slash_ended put_in taken_out].

Lemma omap_nothing {X} (f : staking_log -> option X) l :
  (forall e, e ∈ l -> f e = None) -> omap f l = [].
Proof.
  induction l as [|e l IH]; intros H; [reflexivity|]. cbn [omap list_omap]. rewrite (H e) by left.
  apply IH. intros e' He. apply H. now right.
Qed.
Lemma total_nothing (f : staking_log -> N) l : (forall e, e ∈ l -> f e = 0) -> list_total f l = 0.
Proof.
  induction l as [|e l IH]; intros H; [reflexivity|]. rewrite list_total_cons, (H e) by left. rewrite IH; [reflexivity|].
  intros e' He. apply H. now right.
Qed.

(** The events of a finished unstake. *)
Definition unstake_of (a p : N) (e : staking_log) : Prop := exists prove i, e = LgAmounts (EvUnstake a p prove i).
Lemma finished_events (a p : N) (done : list unstake_claim) evs :
  Forall2 (fun c ev => exists prove i, ev = EvUnstake a p prove i) done evs ->
  forall e, e ∈ map LgAmounts evs -> unstake_of a p e.
Proof.
  induction 1 as [|c ev done evs (prove & i & ->) _ IH]; cbn [map]; intros e He; [now apply elem_of_nil in He|].
  apply elem_of_cons in He as [->|He]; [exists prove, i; reflexivity|now apply IH].
Qed.

(** ** The settings *)

Lemma settings_calls K d : kept_by_calls K (settings_shown d).
Proof.
  intros l s s' new _ _ He [H1 H2 H3 H4].
  assert (Hq : forall new', (forall e, e ∈ new' -> owner_step e = None /\ dispenser_step e = None /\ rate_step e = None /\ dispensed e = 0) ->
    sk_owner s' = sk_owner s -> sk_dispensing s' = sk_dispensing s -> settings_shown d (l ++ new') s').
  { intros new' Hn A1 A3. split; rewrite ?omap_app, ?list_total_app, ?A1, ?A3.
    - rewrite (omap_nothing owner_step new'), app_nil_r by (intros e E; now apply Hn in E). exact H1.
    - rewrite (omap_nothing dispenser_step new'), app_nil_r by (intros e E; now apply Hn in E). exact H2.
    - rewrite (omap_nothing rate_step new'), app_nil_r by (intros e E; now apply Hn in E). exact H3.
    - rewrite (total_nothing dispensed new') by (intros e E; now apply Hn in E). lia. }
  inversion He as [a p n i sh _ _ _ A|a n c _ _ A|a p done left evs gone _ _ Hev _ A|p n t A|p i c _ _ A|p i c prove n low _ _ A1 A2
    |n A1 A2 A3 A4 A5|a A1 A2 A3 A4 A5|r A1 A2 A3 A4 A5|p o bips A1 A2|p n i A|a A1 A2 A3]; subst new.
  - apply Hq; [|apply A|apply A]. intros e. destruct (_ =? 0); cbn [app]; rewrite ?elem_of_cons, elem_of_nil; naive_solver.
  - apply Hq; [|apply A|apply A]. intros e. rewrite !elem_of_cons, elem_of_nil. naive_solver.
  - apply Hq; [|apply A|apply A]. intros e. rewrite elem_of_app. intros [E|E].
    + apply (finished_events _ _ _ _ Hev) in E as (prove & i & ->). auto.
    + destruct gone; [apply elem_of_list_singleton in E as ->; auto|now apply elem_of_nil in E].
  - apply Hq; [|apply A|apply A]. intros e. rewrite elem_of_list_singleton. now intros ->.
  - apply Hq; [|apply A|apply A]. intros e. rewrite elem_of_list_singleton. now intros ->.
  - apply Hq; [|exact A1|exact A2]. intros e. destruct low; cbn [app]; rewrite ?elem_of_cons, elem_of_nil; naive_solver.
  - split; logs_simpl; rewrite ?app_nil_r, ?A1, ?A3, ?A4; try assumption. lia.
  - split; logs_simpl; rewrite ?app_nil_r, ?A1, ?A4; try assumption; [|lia]. rewrite A3. now apply connected_snoc.
  - split; logs_simpl; rewrite ?app_nil_r, ?A1, ?A3; try assumption; [|lia]. rewrite A4. now apply connected_snoc.
  - split; logs_simpl; rewrite ?app_nil_r, ?A1, ?A2; try assumption. lia.
  - apply Hq; [|apply A|apply A]. intros e. rewrite elem_of_list_singleton. now intros ->.
  - split; logs_simpl; rewrite ?app_nil_r, ?A3; try assumption; [|lia]. rewrite A1. now apply connected_snoc.
Qed.

Lemma told_settings K d log logs s : stk_told K d log logs s -> settings_shown d logs s.
Proof.
  apply (told_carries K (settings_shown d)).
  - intros l s0 t []. split; assumption.
  - apply settings_calls.
  - intros prove owner governor pa s0 Hi. apply initial_fields in Hi as (E1 & _ & E3 & _).
    split; cbn [staking_initialize_logs omap list_omap list_total fold_right]; rewrite ?E1, ?E3; cbn [dp_dispenser dp_rate dp_distributed]; repeat constructor.
Qed.

(** ** What is held for provers *)

Definition held_shown (K : staking_env) (logs : list staking_log) (s : staking) : Prop :=
  forall p, p <> ke_self K -> held s p + list_total (taken_out p) logs = list_total (put_in p) logs.

Lemma finished_iprove (a p : N) (done : list unstake_claim) evs q :
  Forall2 (fun c ev => exists prove i, ev = EvUnstake a p prove i) done evs ->
  list_total (taken_out q) (map LgAmounts evs) = (if q =? p then list_total ev_iprove evs else 0) /\
  list_total (put_in q) (map LgAmounts evs) = 0.
Proof.
  induction 1 as [|c ev done evs (prove & i & ->) _ [IH1 IH2]]; cbn [map]; [destruct (q =? p); split; reflexivity|].
  rewrite !list_total_cons, IH1, IH2. cbn [taken_out put_in ev_iprove]. rewrite (N.eqb_sym p q). destruct (q =? p); lia.
Qed.

Lemma total_if (f : staking_log -> N) (b : bool) e : f e = 0 -> list_total f (if b then [e] else []) = 0.
Proof. destruct b; cbn [list_total fold_right]; lia. Qed.

Lemma held_calls K : kept_by_calls K (held_shown K).
Proof.
  intros l s s' new _ _ He H p Hp. specialize (H p Hp). rewrite !list_total_app.
  destruct He as [a q n i sh _ _ _ _ _ _ _ _ _ A|a n c _ _ _ _ _ _ _ _ A|a q done left evs gone _ _ Hev _ _ _ _ _ _ A|q n t _ _ A|q i c _ _ _ _ A
    |q i c prove n low _ _ _ _ _ _ _ _ _ _ _ _ A
    |n _ _ _ _ _ _ _ A|a _ _ _ _ _ _ _ A|r _ _ _ _ _ _ _ A|q o bips _ _ _ _ _ _ _ _ _ _ _ A|q n i _ _ _ A|a _ _ _ _ _ A];
    try (rewrite A by exact Hp); try rewrite A.
  - rewrite !list_total_app. rewrite !total_if by reflexivity.
    cbn [list_total fold_right taken_out put_in]. rewrite (N.eqb_sym q p). lia.
  - cbn [list_total fold_right taken_out put_in]. lia.
  - rewrite !list_total_app. destruct (finished_iprove a q done evs p Hev) as [-> ->].
    rewrite !total_if by reflexivity.
    specialize (A p Hp). lia.
  - cbn [list_total fold_right taken_out put_in]. lia.
  - cbn [list_total fold_right taken_out put_in]. lia.
  - rewrite !list_total_app.
    rewrite !total_if by reflexivity.
    cbn [list_total fold_right taken_out put_in]. rewrite (N.eqb_sym q p). specialize (A p Hp). lia.
  - cbn [list_total fold_right taken_out put_in]. lia.
  - cbn [list_total fold_right taken_out put_in]. lia.
  - cbn [list_total fold_right taken_out put_in]. lia.
  - cbn [list_total fold_right taken_out put_in]. lia.
  - cbn [list_total fold_right taken_out put_in]. rewrite (N.eqb_sym q p). lia.
  - cbn [list_total fold_right taken_out put_in]. lia.
Qed.

Lemma told_held K d log logs s p : stk_told K d log logs s -> p <> ke_self K ->
  tk_balance (bk_iprove (sk_bank s)) p + ep_escrow (pool_of s p) + list_total (taken_out p) logs = list_total (put_in p) logs.
Proof.
  intros H. revert p. change (held_shown K logs s). revert H. apply (told_carries K (held_shown K)).
  - intros l s0 t H p Hp. exact (H p Hp).
  - apply held_calls.
  - intros prove owner governor pa s0 Hi p Hp. apply initial_fields in Hi as (_ & _ & _ & _ & _ & _ & _ & E8 & _ & _ & E11).
    unfold held, pool_of, tk_balance. rewrite E8, E11, !lookup_empty. reflexivity.
Qed.

(** ** The provers *)

Lemma provers_same l new s s' :
  (forall e, e ∈ new -> deployed e = None /\ deactivation e = None) -> sk_registry s' = sk_registry s ->
  provers_shown l s -> provers_shown (l ++ new) s'.
Proof.
  intros Hn E [H1 H2 H3 H4 H5 H6 H7].
  assert (Hd : forall p o b, LgDeploy p o b ∈ l ++ new <-> LgDeploy p o b ∈ l).
  { intros p o b. rewrite elem_of_app. split; [|auto]. intros [?|Hx]; [assumption|]. now apply Hn in Hx as [? _]. }
  assert (Ho : omap deployed (l ++ new) = omap deployed l)
    by (rewrite omap_app, (omap_nothing deployed new), app_nil_r by (intros e Hx; now apply Hn in Hx); reflexivity).
  assert (Hx : omap deactivation (l ++ new) = omap deactivation l)
    by (rewrite omap_app, (omap_nothing deactivation new), app_nil_r by (intros e Hx; now apply Hn in Hx); reflexivity).
  split; rewrite ?Ho, ?Hx; unfold is_prover, is_deactivated in *; rewrite ?E; try assumption.
  - intros p. rewrite H1. setoid_rewrite Hd. reflexivity.
  - intros o p. rewrite H2. setoid_rewrite Hd. reflexivity.
  - intros p o b. rewrite Hd. apply H4.
  - intros p. rewrite H6, elem_of_app. split; [auto|]. intros [?|Hy]; [assumption|]. now apply Hn in Hy as [_ ?].
Qed.

Lemma deactivation_in p (l : list staking_log) : p ∈ omap deactivation l <-> LgDeactivation p ∈ l.
Proof.
  rewrite elem_of_list_omap. split.
  - intros (e & He & Hd). destruct e; try discriminate. cbn [deactivation] in Hd. congruence.
  - intros H. exists (LgDeactivation p). auto.
Qed.
Lemma deployed_in p o b (l : list staking_log) : (p, o, b) ∈ omap deployed l <-> LgDeploy p o b ∈ l.
Proof.
  rewrite elem_of_list_omap. split.
  - intros (e & He & Hd). destruct e; try discriminate. cbn [deployed] in Hd. congruence.
  - intros H. exists (LgDeploy p o b). auto.
Qed.

Lemma provers_calls K : kept_by_calls K provers_shown.
Proof.
  intros l s s' new Hinv _ He Hsh. pose proof Hsh as [H1 H2 [H3 H3'] H4 H5 H6 H7].
  destruct He as [a p n i sh _ _ _ A|a n c _ _ A|a p done left evs gone _ _ Hev _ A|p n t A|p i c _ _ A|p i c prove n low _ _ _ _ _ A1 A2 A3 A4 A5
    |n _ A|a _ A|r _ A|p o bips _ _ Hb Ho Hp A1 A2 A3 A4|p n i A|a _ A].
  - eapply provers_same; [|apply A|exact Hsh]. intros e. destruct (_ =? 0); cbn [app]; rewrite ?elem_of_cons, elem_of_nil; naive_solver.
  - eapply provers_same; [|apply A|exact Hsh]. intros e. rewrite !elem_of_cons, elem_of_nil. naive_solver.
  - eapply provers_same; [|apply A|exact Hsh]. intros e. rewrite elem_of_app. intros [E|E].
    + apply (finished_events _ _ _ _ Hev) in E as (prove & i & ->). auto.
    + destruct gone; [apply elem_of_list_singleton in E as ->; auto|now apply elem_of_nil in E].
  - eapply provers_same; [|apply A|exact Hsh]. intros e. rewrite elem_of_list_singleton. now intros ->.
  - eapply provers_same; [|apply A|exact Hsh]. intros e. rewrite elem_of_list_singleton. now intros ->.
  - set (new := [LgAmounts (EvSlash p prove n i)] ++ (if low then [LgDeactivation p] else [])).
    assert (Hn : forall q o b, LgDeploy q o b ∈ l ++ new <-> LgDeploy q o b ∈ l).
    { intros q o b. rewrite elem_of_app. split; [|auto]. intros [?|Hx]; [assumption|].
      unfold new in Hx. destruct low; cbn [app] in Hx; rewrite ?elem_of_cons, elem_of_nil in Hx; naive_solver. }
    assert (Ho : omap deployed (l ++ new) = omap deployed l).
    { rewrite omap_app, (omap_nothing deployed new), app_nil_r; [reflexivity|]. intros e.
      unfold new. destruct low; cbn [app]; rewrite ?elem_of_cons, elem_of_nil; naive_solver. }
    split; rewrite ?Ho; unfold is_prover; rewrite ?A1, ?A2, ?A3; try assumption.
    + intros q. setoid_rewrite Hn. exact (H1 q).
    + intros o q. setoid_rewrite Hn. exact (H2 o q).
    + split; assumption.
    + intros q o b. rewrite Hn. apply H4.
    + intros q. rewrite A5, orb_true_iff, H6, elem_of_app. unfold new.
      destruct low; cbn [app]; rewrite ?elem_of_cons, elem_of_nil, andb_true_iff, N.eqb_eq; naive_solver.
    + rewrite omap_app. unfold new. destruct low; cbn [app omap list_omap deactivation]; [|now rewrite app_nil_r].
      apply NoDup_app. split; [exact H7|]. split; [|apply NoDup_singleton].
      intros q Hq. rewrite elem_of_list_singleton. intros ->. apply deactivation_in, H6 in Hq. rewrite A4 in Hq; [discriminate|reflexivity].
  - eapply provers_same; [|apply A|exact Hsh]. intros e. rewrite elem_of_list_singleton. now intros ->.
  - eapply provers_same; [|apply A|exact Hsh]. intros e. rewrite elem_of_list_singleton. now intros ->.
  - eapply provers_same; [|apply A|exact Hsh]. intros e. rewrite elem_of_list_singleton. now intros ->.
  - assert (Hnone : rg_owners (sk_registry s) !! o = None).
    { destruct (rg_owners (sk_registry s) !! o) as [q|] eqn:E; [|reflexivity]. cbn [default from_option id] in Ho.
      assert (Hq : is_prover s q = true) by (apply H1; apply H2 in E as [b Hin]; eauto).
      apply is_prover_in in Hq. apply (ki_provers K s Hinv) in Hq as [Hq _]. congruence. }
    assert (Hnew : forall q b, ~ LgDeploy q o b ∈ l).
    { intros q b Hin. assert (E : rg_owners (sk_registry s) !! o = Some q) by (apply H2; eauto). congruence. }
    assert (Hnew' : forall q b, ~ LgDeploy p q b ∈ l).
    { intros q b Hin. apply Hp. apply is_prover_in. apply H1. eauto. }
    split.
    + intros q. unfold is_prover. rewrite A1, bool_decide_eq_true, elem_of_union, elem_of_singleton.
      setoid_rewrite elem_of_app. setoid_rewrite elem_of_list_singleton. split.
      * intros [->|Hq]; [eauto|]. destruct (proj1 (H1 q)) as (o' & b & Hin); [unfold is_prover; now apply bool_decide_eq_true|eauto].
      * intros (o' & b & [Hin|E]); [right; apply is_prover_in, H1; eauto|left; congruence].
    + intros o' q. rewrite A2. setoid_rewrite elem_of_app. setoid_rewrite elem_of_list_singleton.
      destruct (decide (o' = o)) as [->|Hne].
      * rewrite lookup_insert. split; [intros [= <-]; eauto|]. intros (b & [Hin|E]); [now apply Hnew in Hin|congruence].
      * rewrite lookup_insert_ne by congruence. rewrite H2. split; [intros (b & Hin); eauto|]. intros (b & [Hin|E]); [eauto|congruence].
    + rewrite omap_app. cbn [omap list_omap deployed]. rewrite !map_app. cbn [map fst snd]. split; apply NoDup_app.
      * split; [exact H3|]. split; [|apply NoDup_singleton]. intros q Hq. rewrite elem_of_list_singleton. intros ->.
        apply elem_of_list_fmap in Hq as ([[p' o'] b] & E & Hin). cbn [fst] in E. subst. apply deployed_in in Hin. now apply Hnew' in Hin.
      * split; [exact H3'|]. split; [|apply NoDup_singleton]. intros q Hq. rewrite elem_of_list_singleton. intros ->.
        apply elem_of_list_fmap in Hq as ([[p' o'] b] & E & Hin). cbn [fst snd] in E. subst. apply deployed_in in Hin. now apply Hnew in Hin.
    + intros q o' b. rewrite elem_of_app, elem_of_list_singleton. intros [Hin|E]; [now apply H4 in Hin|congruence].
    + rewrite A4, H5, omap_app, app_length. cbn [omap list_omap deployed length].
      change two256 with (2 ^ 256). rewrite N.add_mod_idemp_l by discriminate. f_equal. lia.
    + intros q. unfold is_deactivated. rewrite A3. fold (is_deactivated s q). rewrite H6, elem_of_app, elem_of_list_singleton. naive_solver.
    + rewrite omap_app. cbn [omap list_omap deactivation]. now rewrite app_nil_r.
  - eapply provers_same; [|apply A|exact Hsh]. intros e. rewrite elem_of_list_singleton. now intros ->.
  - eapply provers_same; [|apply A|exact Hsh]. intros e. rewrite elem_of_list_singleton. now intros ->.
Qed.

Lemma told_provers K d log logs s : stk_told K d log logs s -> provers_shown logs s.
Proof.
  apply (told_carries K provers_shown).
  - intros l s0 t []. split; assumption.
  - apply provers_calls.
  - intros prove owner governor pa s0 Hi. apply initial_fields in Hi as (_ & E2 & _).
    split; unfold is_prover, is_deactivated; rewrite ?E2; change (staking_initialize_logs owner) with [LgOwner 0 owner]; cbn [omap list_omap deployed deactivation map length rg_provers rg_owners rg_deactivated rg_count]; change (staking_initialize_logs owner) with [LgOwner 0 owner].
    + intros p. rewrite bool_decide_eq_true, elem_of_empty. setoid_rewrite elem_of_list_singleton. naive_solver.
    + intros o p. rewrite lookup_empty. setoid_rewrite elem_of_list_singleton. naive_solver.
    + split; apply NoDup_nil_2.
    + intros p o b. rewrite elem_of_list_singleton. discriminate.
    + reflexivity.
    + intros p. rewrite bool_decide_eq_true, elem_of_empty, elem_of_list_singleton. naive_solver.
    + apply NoDup_nil_2.
Qed.

(** ** The stakers *)

Lemma finished_logs (a p : N) (done : list unstake_claim) evs y :
  Forall2 (fun c ev => exists prove i, ev = EvUnstake a p prove i) done evs ->
  omap (binding_step y) (map LgAmounts evs) = [] /\ omap (claim_made y) (map LgAmounts evs) = [] /\
  length (omap (claim_done y) (map LgAmounts evs)) = (if a =? y then length done else 0%nat) /\
  list_total (received y) (map LgAmounts evs) = 0 /\ list_total (given y) (map LgAmounts evs) = 0 /\
  list_total (staked_by y) (map LgAmounts evs) = 0 /\ list_total (unstaked_by y) (map LgAmounts evs) = 0.
Proof.
  induction 1 as [|c ev done evs (prove & i & ->) _ (I1 & I2 & I3 & I4 & I5 & I6 & I7)]; cbn [map].
  - destruct (a =? y); repeat split; reflexivity.
  - rewrite !list_total_cons, I4, I5, I6, I7. cbn [omap list_omap binding_step claim_made claim_done received given staked_by unstaked_by].
    rewrite I1, I2. destruct (a =? y); cbn [length]; rewrite I3; repeat split; reflexivity.
Qed.

Definition of_no_staker (e : staking_log) : Prop :=
  forall y, binding_step y e = None /\ claim_made y e = None /\ claim_done y e = None /\
    received y e = 0 /\ given y e = 0 /\ staked_by y e = 0 /\ unstaked_by y e = 0.

Lemma stakers_same l new s s' :
  (forall e, e ∈ new -> of_no_staker e) -> same_stakers s s' -> stakers_shown l s -> stakers_shown (l ++ new) s'.
Proof.
  intros Hn (E1 & E2 & E3 & E4) [H1 H2 H3 H4 H5 H6].
  assert (N1 : forall y, omap (binding_step y) (l ++ new) = omap (binding_step y) l)
    by (intros y; rewrite omap_app, (omap_nothing _ new), app_nil_r by (intros e He; apply (Hn e He y)); reflexivity).
  assert (N2 : forall y, omap (claim_made y) (l ++ new) = omap (claim_made y) l)
    by (intros y; rewrite omap_app, (omap_nothing _ new), app_nil_r by (intros e He; apply (Hn e He y)); reflexivity).
  assert (N3 : forall y, omap (claim_done y) (l ++ new) = omap (claim_done y) l)
    by (intros y; rewrite omap_app, (omap_nothing _ new), app_nil_r by (intros e He; apply (Hn e He y)); reflexivity).
  assert (N4 : forall y, list_total (received y) (l ++ new) = list_total (received y) l)
    by (intros y; rewrite list_total_app, (total_nothing _ new), N.add_0_r by (intros e He; apply (Hn e He y)); reflexivity).
  assert (N5 : forall y, list_total (given y) (l ++ new) = list_total (given y) l)
    by (intros y; rewrite list_total_app, (total_nothing _ new), N.add_0_r by (intros e He; apply (Hn e He y)); reflexivity).
  assert (N6 : forall y, list_total (staked_by y) (l ++ new) = list_total (staked_by y) l)
    by (intros y; rewrite list_total_app, (total_nothing _ new), N.add_0_r by (intros e He; apply (Hn e He y)); reflexivity).
  assert (N7 : forall y, list_total (unstaked_by y) (l ++ new) = list_total (unstaked_by y) l)
    by (intros y; rewrite list_total_app, (total_nothing _ new), N.add_0_r by (intros e He; apply (Hn e He y)); reflexivity).
  split.
  - intros a. rewrite N1, E1. apply H1.
  - intros a Ha. rewrite N4, N5, E2. now apply H2.
  - rewrite N4, N5, E3. exact H3.
  - intros a. rewrite N6, N7, E2. apply H4.
  - intros a. rewrite N2, N3, E4. apply H5.
  - intros a. rewrite N2, E4. apply H6.
Qed.

Lemma stakers_calls K : kept_by_calls K stakers_shown.
Proof.
  intros l s s' new _ _ He Hsh. pose proof Hsh as [H1 H2 H3 H4 H5 H6].
  destruct He as [a p n i sh Ha Hp Hb _ _ B1 B2 B3 B4 _|a n c Ha _ _ _ B1 B2 B3 B4 _|a p done left evs gone Hpa _ Hev Hperm _ _ B2 B3 B4 _ _ B1
    |p n t _ A|p i c _ _ _ A|p i c prove n low _ _ _ _ A
    |n _ _ _ _ _ _ A|a _ _ _ _ _ _ A|r _ _ _ _ _ _ A|p o bips _ _ _ _ _ _ _ _ _ _ A|p n i _ _ A|a _ _ _ _ A].
  - split.
    + intros y. rewrite B1, !omap_app. specialize (H1 y). cbn [omap list_omap binding_step]. rewrite app_nil_r.
      destruct (N.eqb_spec y a) as [->|Hy].
      * destruct (N.eqb_spec (bound_to s a) 0) as [E|E].
        -- cbn [omap list_omap binding_step]. rewrite N.eqb_refl. rewrite E in H1. now apply connected_snoc.
        -- cbn [omap list_omap]. rewrite app_nil_r. destruct Hb as [?|<-]; [congruence|exact H1].
      * replace (omap (binding_step y) (if bound_to s a =? 0 then [LgBound a p] else [])) with (@nil (N * N)); [now rewrite app_nil_r|].
        destruct (bound_to s a =? 0); cbn [omap list_omap binding_step]; [|reflexivity]. destruct (N.eqb_spec a y); [congruence|reflexivity].
    + intros y Hy. rewrite B2, !list_total_app. specialize (H2 y Hy). rewrite !total_if by reflexivity.
      cbn [list_total fold_right received given]. rewrite (N.eqb_sym a y). destruct (N.eqb_spec 0 y); [congruence|]. lia.
    + rewrite B3, !list_total_app, !total_if by reflexivity. cbn [list_total fold_right received given].
      destruct (N.eqb_spec a 0); [congruence|]. cbn [N.eqb]. lia.
    + intros y. rewrite B2, !list_total_app. specialize (H4 y). rewrite !total_if by reflexivity.
      cbn [list_total fold_right staked_by unstaked_by]. rewrite (N.eqb_sym a y). lia.
    + intros y. rewrite B4, !omap_app, !app_length. specialize (H5 y).
      destruct (bound_to s a =? 0); cbn [omap list_omap claim_made claim_done length]; lia.
    + intros y. rewrite B4, !omap_app. specialize (H6 y).
      destruct (bound_to s a =? 0); cbn [omap list_omap claim_made app]; now rewrite !app_nil_r.
  - split.
    + intros y. rewrite B1, omap_app. cbn [omap list_omap binding_step]. rewrite app_nil_r. apply H1.
    + intros y Hy. specialize (H2 y Hy). specialize (B2 y). rewrite !list_total_app. cbn [list_total fold_right received given].
      rewrite (N.eqb_sym a y). destruct (N.eqb_spec 0 y); [congruence|]. lia.
    + rewrite !list_total_app. cbn [list_total fold_right received given]. destruct (N.eqb_spec a 0); [congruence|]. cbn [N.eqb]. lia.
    + intros y. specialize (H4 y). specialize (B2 y). rewrite !list_total_app. cbn [list_total fold_right staked_by unstaked_by].
      rewrite (N.eqb_sym a y). lia.
    + intros y. specialize (H5 y). rewrite B4, !omap_app, !app_length. cbn [omap list_omap claim_made claim_done length].
      rewrite (N.eqb_sym a y). destruct (y =? a); rewrite ?app_length; cbn [length]; lia.
    + intros y. specialize (H6 y). rewrite B4, !omap_app. cbn [omap list_omap claim_made]. rewrite (N.eqb_sym a y).
      destruct (y =? a); [rewrite map_app; cbn [map]; now apply submseteq_app|now rewrite app_nil_r].
  - split.
    + intros y. rewrite !omap_app. destruct (finished_logs a p done evs y Hev) as (-> & _). cbn [app]. rewrite B1. specialize (H1 y).
      destruct gone; [|rewrite andb_false_r; cbn [omap list_omap]; now rewrite app_nil_r]. rewrite andb_true_r.
      cbn [omap list_omap binding_step]. rewrite (N.eqb_sym a y). destruct (N.eqb_spec y a) as [->|]; [|now rewrite app_nil_r].
      subst p. now apply connected_snoc.
    + intros y Hy. rewrite !list_total_app, !total_if by reflexivity.
      destruct (finished_logs a p done evs y Hev) as (_ & _ & _ & -> & -> & _). rewrite B2. specialize (H2 y Hy). lia.
    + rewrite !list_total_app, !total_if by reflexivity.
      destruct (finished_logs a p done evs 0 Hev) as (_ & _ & _ & -> & -> & _). rewrite B3. lia.
    + intros y. rewrite !list_total_app, !total_if by reflexivity.
      destruct (finished_logs a p done evs y Hev) as (_ & _ & _ & _ & _ & -> & ->). rewrite B2. specialize (H4 y). lia.
    + intros y. rewrite !omap_app, !app_length. destruct (finished_logs a p done evs y Hev) as (_ & -> & -> & _).
      rewrite B4. specialize (H5 y). rewrite (N.eqb_sym a y).
      assert (E : forall f : staking_log -> option N, f (LgUnbound a p) = None -> omap f (if gone then [LgUnbound a p] else []) = [])
        by (intros f Hf; destruct gone; cbn [omap list_omap]; rewrite ?Hf; reflexivity).
      rewrite !E by reflexivity. cbn [length].
      destruct (N.eqb_spec y a) as [->|]; [|lia]. apply Permutation_length in Hperm. rewrite app_length in Hperm. lia.
    + intros y. rewrite !omap_app. destruct (finished_logs a p done evs y Hev) as (_ & -> & _).
      replace (omap (claim_made y) (if gone then [LgUnbound a p] else [])) with (@nil N) by (destruct gone; reflexivity).
      rewrite !app_nil_r, B4. specialize (H6 y). destruct (N.eqb_spec y a) as [->|]; [|exact H6].
      transitivity (map uc_escrow (claims_of s a)); [|exact H6].
      rewrite (Permutation_map uc_escrow Hperm), map_app. now apply submseteq_inserts_l.
  - eapply stakers_same; [|exact A|exact Hsh]. intros e. rewrite elem_of_list_singleton. intros ->. now repeat split.
  - eapply stakers_same; [|exact A|exact Hsh]. intros e. rewrite elem_of_list_singleton. intros ->. now repeat split.
  - eapply stakers_same; [|exact A|exact Hsh]. intros e. destruct low; cbn [app]; rewrite ?elem_of_cons, elem_of_nil; intros He.
    + destruct He as [->|[->|[]]]; now repeat split.
    + destruct He as [->|[]]; now repeat split.
  - eapply stakers_same; [|exact A|exact Hsh]. intros e. rewrite elem_of_list_singleton. intros ->. now repeat split.
  - eapply stakers_same; [|exact A|exact Hsh]. intros e. rewrite elem_of_list_singleton. intros ->. now repeat split.
  - eapply stakers_same; [|exact A|exact Hsh]. intros e. rewrite elem_of_list_singleton. intros ->. now repeat split.
  - eapply stakers_same; [|exact A|exact Hsh]. intros e. rewrite elem_of_list_singleton. intros ->. now repeat split.
  - eapply stakers_same; [|exact A|exact Hsh]. intros e. rewrite elem_of_list_singleton. intros ->. now repeat split.
  - eapply stakers_same; [|exact A|exact Hsh]. intros e. rewrite elem_of_list_singleton. intros ->. now repeat split.
Qed.

Lemma told_stakers K d log logs s : stk_told K d log logs s -> stakers_shown logs s.
Proof.
  apply (told_carries K stakers_shown).
  - intros l s0 t []. split; assumption.
  - apply stakers_calls.
  - intros prove owner governor pa s0 Hi. apply initial_fields in Hi as (_ & _ & _ & E4 & E5 & _ & _ & _ & E9 & E10 & _).
    split; unfold bound_to, stake_of, claims_of; rewrite ?E4, ?E5, ?E9, ?E10; change (staking_initialize_logs owner) with [LgOwner 0 owner];
      intros; rewrite ?lookup_empty; try reflexivity. constructor.
Qed.

(** ** The slash requests *)

Lemma slashes_same l new s s' :
  (forall e, e ∈ new -> forall p, slash_asked p e = None /\ slash_ended p e = None) -> same_slashes s s' ->
  slashes_shown l s -> slashes_shown (l ++ new) s'.
Proof.
  intros Hn E [H1 H2 H3 H4 H5].
  assert (N1 : forall y, omap (slash_asked y) (l ++ new) = omap (slash_asked y) l)
    by (intros y; rewrite omap_app, (omap_nothing _ new), app_nil_r by (intros e He; apply (Hn e He y)); reflexivity).
  assert (N2 : forall y, omap (slash_ended y) (l ++ new) = omap (slash_ended y) l)
    by (intros y; rewrite omap_app, (omap_nothing _ new), app_nil_r by (intros e He; apply (Hn e He y)); reflexivity).
  split; intros p; destruct (E p) as [E1 E2]; rewrite ?N1, ?N2, ?E1, ?E2; auto.
Qed.

(** A request that is over. *)
Lemma slashes_end l new s s' p i c :
  slashes_of s p !! N.to_nat i = Some c -> sc_resolved c = false ->
  (forall q, omap (slash_asked q) new = []) -> (forall q, omap (slash_ended q) new = if q =? p then [i] else []) ->
  (forall q, slashes_of s' q = if q =? p then <[N.to_nat i := SlashClaim (sc_amount c) (sc_time c) true]> (slashes_of s q)
                               else slashes_of s q) ->
  (forall q, pending_of s' q + (if q =? p then 1 else 0) = pending_of s q) ->
  slashes_shown l s -> slashes_shown (l ++ new) s'.
Proof.
  intros Hc Hr N1 N2 E1 E2 [H1 H2 H3 H4 H5].
  assert (Hi : ~ i ∈ omap (slash_ended p) l).
  { intros Hin. rewrite <- (N2Nat.id i) in Hin. apply (H2 p _ c Hc) in Hin. congruence. }
  split; intros q; rewrite ?omap_app, ?N1, ?N2, ?app_nil_r, ?E1; specialize (H1 q); specialize (H2 q); specialize (H3 q); specialize (H4 q);
    specialize (H5 q); specialize (E2 q); (destruct (N.eqb_spec q p) as [Hq|Hq]; [subst q|]); rewrite ?app_nil_r; auto; try lia.
  - rewrite H1. apply list_eq. intros k. rewrite !list_lookup_imap. destruct (decide (k = N.to_nat i)) as [->|Hk].
    + rewrite list_lookup_insert, Hc by (eapply lookup_lt_Some; eassumption). reflexivity.
    + now rewrite list_lookup_insert_ne by congruence.
  - intros k c' Hk. rewrite elem_of_app, elem_of_list_singleton. destruct (decide (k = N.to_nat i)) as [->|Hne].
    + rewrite list_lookup_insert in Hk by (eapply lookup_lt_Some; eassumption). injection Hk as <-. cbn [sc_resolved]. rewrite N2Nat.id. tauto.
    + rewrite list_lookup_insert_ne in Hk by congruence. rewrite (H2 _ _ Hk). split; [auto|]. intros [?|E]; [assumption|]. lia.
  - apply NoDup_app. split; [exact H3|]. split; [|apply NoDup_singleton]. intros k Hk. rewrite elem_of_list_singleton. now intros ->.
  - intros k. rewrite elem_of_app, elem_of_list_singleton, insert_length. intros [Hk| ->]; [now apply H4|].
    apply lookup_lt_Some in Hc. lia.
  - rewrite app_length. cbn [length]. lia.
Qed.

Lemma slashes_calls K : kept_by_calls K slashes_shown.
Proof.
  intros l s s' new _ _ He Hsh. pose proof Hsh as [H1 H2 H3 H4 H5].
  destruct He as [a p n i sh _ _ _ _ A|a n c _ _ _ A|a p done left evs gone _ _ Hev _ _ A
    |p n t _ _ _ B1 B2|p i c Hc Hr _ _ _ B1 B2|p i c prove n low Hc Hr _ _ _ _ _ _ _ _ B1 B2
    |n _ _ _ _ _ A|a _ _ _ _ _ A|r _ _ _ _ _ A|p o bips _ _ _ _ _ _ _ _ _ A|p n i _ A|a _ _ _ A].
  - eapply slashes_same; [|exact A|exact Hsh]. intros e. destruct (_ =? 0); cbn [app]; rewrite ?elem_of_cons, elem_of_nil; naive_solver.
  - eapply slashes_same; [|exact A|exact Hsh]. intros e. rewrite !elem_of_cons, elem_of_nil. naive_solver.
  - eapply slashes_same; [|exact A|exact Hsh]. intros e. rewrite elem_of_app. intros [E|E].
    + apply (finished_events _ _ _ _ Hev) in E as (prove & i & ->). auto.
    + destruct gone; [apply elem_of_list_singleton in E as ->; auto|now apply elem_of_nil in E].
  - split; intros q; rewrite ?omap_app; cbn [omap list_omap slash_asked slash_ended]; rewrite ?app_nil_r, ?B1, ?B2;
      rewrite ?(N.eqb_sym p q); specialize (H1 q); specialize (H2 q); specialize (H3 q); specialize (H4 q); specialize (H5 q);
      (destruct (N.eqb_spec q p) as [Hq|Hq]; [subst q|]); rewrite ?app_nil_r; auto; try lia.
    + rewrite H1, imap_app. cbn [imap]. rewrite Nat.add_0_r. reflexivity.
    + intros k c Hk. apply lookup_app_Some in Hk as [Hk|[Hle Hk]]; [now apply H2|].
      apply list_lookup_singleton_Some in Hk as [_ <-]. cbn [sc_resolved].
      split; [discriminate|]. intros Hin. apply H4 in Hin. lia.
    + intros k Hk. apply H4 in Hk. rewrite app_length. lia.
    + rewrite app_length. cbn [length]. lia.
  - eapply slashes_end; [exact Hc|exact Hr| | |exact B1|exact B2|exact Hsh]; intros q; [reflexivity|].
    cbn [omap list_omap slash_ended]. rewrite (N.eqb_sym p q). now destruct (q =? p).
  - eapply slashes_end; [exact Hc|exact Hr| | |exact B1|exact B2|exact Hsh]; intros q.
    + destruct low; reflexivity.
    + destruct low; cbn [app omap list_omap slash_ended]; rewrite (N.eqb_sym p q); now destruct (q =? p).
  - eapply slashes_same; [|exact A|exact Hsh]. intros e. rewrite elem_of_list_singleton. now intros ->.
  - eapply slashes_same; [|exact A|exact Hsh]. intros e. rewrite elem_of_list_singleton. now intros ->.
  - eapply slashes_same; [|exact A|exact Hsh]. intros e. rewrite elem_of_list_singleton. now intros ->.
  - eapply slashes_same; [|exact A|exact Hsh]. intros e. rewrite elem_of_list_singleton. now intros ->.
  - eapply slashes_same; [|exact A|exact Hsh]. intros e. rewrite elem_of_list_singleton. now intros ->.
  - eapply slashes_same; [|exact A|exact Hsh]. intros e. rewrite elem_of_list_singleton. now intros ->.
Qed.

Lemma told_slashes K d log logs s : stk_told K d log logs s -> slashes_shown logs s.
Proof.
  apply (told_carries K slashes_shown).
  - intros l s0 t []. split; assumption.
  - apply slashes_calls.
  - intros prove owner governor pa s0 Hi. apply initial_fields in Hi as (_ & _ & _ & _ & _ & E6 & E7 & _).
    split; unfold slashes_of, pending_of; rewrite ?E6, ?E7; change (staking_initialize_logs owner) with [LgOwner 0 owner];
      intros p; rewrite ?lookup_empty; try reflexivity.
    + intros i c. discriminate.
    + apply NoDup_nil_2.
    + intros i Hi. now apply elem_of_nil in Hi.
Qed.
