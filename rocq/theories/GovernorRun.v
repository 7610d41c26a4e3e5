(** The invariant of governance along a log. *)
From Verif Require Export GovernorFacts.
From Coq Require Import Lia ZifyBool ZifyN ZifyNat.
Open Scope N_scope.

(** ** Logs *)

Lemma world_at_snoc w0 log e t :
  world_at w0 (log ++ [e]) t = match e with
                               | WAccepted x _ w' => if kx_time x <=? t then w' else world_at w0 log t
                               | WReverted _ _ _ => world_at w0 log t
                               end.
Proof. unfold world_at. rewrite fold_left_app. reflexivity. Qed.
Lemma final_snoc w0 log e :
  final w0 (log ++ [e]) = match e with WAccepted _ _ w' => w' | WReverted _ _ _ => final w0 log end.
Proof. unfold final. rewrite fold_left_app. reflexivity. Qed.
Lemma ballots_snoc id log e : ballots id (log ++ [e]) = ballots id log ++ ballots id [e].
Proof. apply flat_map_app. Qed.
Lemma occurs_snoc f log e : occurs f (log ++ [e]) = (occurs f log + if f e then 1 else 0)%nat.
Proof.
  unfold occurs. rewrite List.filter_app, app_length. cbn [List.filter]. now destruct (f e).
Qed.

Definition entry_when (e : gov_entry) : N := match e with WAccepted x _ _ | WReverted x _ _ => kx_time x end.

Lemma concerns_false G id e : concerns G id e = false ->
  proposes G id e = false /\ cancels G id e = false /\ executes G id e = false /\ ballots id [e] = [] /\
  forall p, in_time G id p e.
Proof.
  unfold concerns. rewrite !orb_false_iff. intros (((H1 & H2) & H3) & H4). split; [exact H1|]. split; [exact H2|]. split; [exact H3|].
  split.
  - unfold ballots. cbn [flat_map]. rewrite app_nil_r.
    destruct e as [x [] w|]; try reflexivity. now rewrite H4.
  - intros p. destruct e as [x [] w|]; cbn [in_time cancels executes] in *; auto; intros E; lia.
Qed.

(** An entry about something else. *)
Lemma described_other G w0 log id p e now :
  described G w0 log id p -> (ballots id log <> [] -> pr_start p < now) -> entry_when e = now ->
  concerns G id e = false ->
  described G w0 (log ++ [e]) id p /\ (ballots id (log ++ [e]) <> [] -> pr_start p < now).
Proof.
  intros [D1 D2 D3 D4 D5 D6 D7 D8 D9 D10 D11] Hs Hn Hc. apply concerns_false in Hc as (C1 & C2 & C3 & C4 & C5).
  assert (Hcount : forall k, counted (world_at w0 (log ++ [e]) (pr_start p)) k (ballots id log)
                             = counted (world_at w0 log (pr_start p)) k (ballots id log)).
  { intros k. destruct (ballots id log) as [|b l] eqn:Eb; [reflexivity|]. rewrite world_at_snoc.
    destruct e as [x c w'|x c err]; [|reflexivity]. cbn [entry_when] in Hn.
    destruct (N.leb_spec (kx_time x) (pr_start p)); [|reflexivity]. specialize (Hs ltac:(discriminate)). lia. }
  split; [split|]; rewrite ?ballots_snoc, ?C4, ?app_nil_r; try assumption; rewrite ?Hcount; try assumption.
  - destruct D1 as (l1 & x & via & ac & de & w1 & l2 & -> & Hid & H1 & H2 & H3).
    exists l1, x, via, ac, de, w1, (l2 ++ [e]). rewrite <- app_assoc. cbn [app]. split; [reflexivity|].
    split; [exact Hid|]. split; [exact H1|]. split; [apply Forall_app; split; [exact H2|repeat constructor; exact C1]|exact H3].
  - apply Forall_app. split; [exact D8|]. repeat constructor. apply C5.
  - rewrite occurs_snoc, C3, D9. destruct (pr_executed p); reflexivity.
  - rewrite occurs_snoc, C2, D10. destruct (pr_canceled p); reflexivity.
Qed.

(** ** The invariant *)

Record run_inv (G : gov_env) (t0 : N) (w0 : world) (log : list gov_entry) (w : world) (now : N) : Prop := {
  ri_ginv : ginv G now (fun t a => staked_votes (world_at w0 log t) a) (fun t => iprove_supply (world_at w0 log t))
              (fun t => if t <? t0 then 0 else quorum_percent (world_at w0 log t)) w;
  ri_final : final w0 log = w;
  ri_at : forall t, now <= t -> world_at w0 log t = w;
  ri_stk : forall t, stk_inv (ge_staking G) (w_staking (world_at w0 log t));
  ri_t0 : 0 < t0 <= now;
  ri_times : Forall (fun e => t0 <= entry_when e <= now) log;
  ri_some : forall id p, gv_proposals (w_governor w) !! id = Some p ->
    described G w0 log id p /\ (ballots id log <> [] -> pr_start p < now);
  ri_none : forall id, gv_proposals (w_governor w) !! id = None -> Forall (fun e => concerns G id e = false) log
}.

Lemma ginv_past G now past ps pq past' ps' pq' w :
  (forall t a, t < now -> past' t a = past t a) -> (forall t, t < now -> ps' t = ps t) ->
  (forall t, t < now -> pq' t = pq t) -> ginv G now past ps pq w -> ginv G now past' ps' pq' w.
Proof.
  intros H1 H2 H3 [Gs Gt Gk Gh Go Gn Gc [V1 V2 V3 V4 V5 V6 V7] Gd Gp Gqt gi_quorum0 Gql]. split; try assumption; [split; try assumption|].
  - intros t a. rewrite V6. destruct (N.leb_spec now t); [reflexivity|]. now rewrite H1.
  - intros t. rewrite V7. destruct (N.leb_spec now t); [reflexivity|]. now rewrite H2.
  - intros t. rewrite gi_quorum0. destruct (N.leb_spec now t); [reflexivity|]. now rewrite H3.
Qed.
Lemma ginv_wait G now now' past ps pq w :
  now <= now' -> now' < 2 ^ 48 ->
  (forall t a, now <= t -> t < now' -> past t a = staked_votes w a) ->
  (forall t, now <= t -> t < now' -> ps t = iprove_supply w) ->
  (forall t, now <= t -> t < now' -> pq t = quorum_percent w) -> ginv G now past ps pq w -> ginv G now' past ps pq w.
Proof.
  intros Hle Hlt H1 H2 H3 [Gs Gt Gk Gh Go Gn Gc [V1 V2 V3 V4 V5 V6 V7] Gd Gp Gqt gi_quorum0 Gql]. split; try assumption; [lia|split; try assumption| |].
  - intros a. eapply trace_mono; [apply V4|lia].
  - eapply trace_mono; [eassumption|lia].
  - intros t a. rewrite V6. destruct (N.leb_spec now t), (N.leb_spec now' t); try lia; try reflexivity.
    symmetry. apply H1; assumption.
  - intros t. rewrite V7. destruct (N.leb_spec now t), (N.leb_spec now' t); try lia; try reflexivity.
    symmetry. apply H2; assumption.
  - eapply trace_mono; [eassumption|lia].
  - intros t. rewrite gi_quorum0. destruct (N.leb_spec now t), (N.leb_spec now' t); try lia; try reflexivity.
    symmetry. apply H3; assumption.
Qed.

(** ** The start *)

Lemma start_inv G t0 w0 : gov_start G t0 w0 -> run_inv G t0 w0 [] w0 t0.
Proof.
  intros [HK Hself Hc2 Ht (prove & owner & pa & disp & s0 & delay & period & threshold & quorum & g0 & Ha & Hi & Hg & ->)].
  pose proof (initial_inv _ _ _ _ _ _ _ HK Ha Hi) as Hk. pose proof (initial_owners _ _ _ _ _ _ _ Hi) as Ho.
  assert (Hs0 : rg_provers (sk_registry s0) = ∅ /\ (forall a, tk_balance (bk_iprove (sk_bank s0)) a = 0) /\ bk_isupply (sk_bank s0) = 0).
  { unfold staking_initialize in Hi. destruct (forallb _ _); [|discriminate]. injection Hi as <-.
    cbn [sk_registry rg_provers sk_bank bk_iprove bk_isupply]. split; [reflexivity|]. split; [|reflexivity].
    intros a. unfold tk_balance. cbn [tk_balances]. now rewrite lookup_empty. }
  destruct Hs0 as (Hp & Hb & Hs).
  unfold governor_start in Hg. destruct (_ && _) eqn:E in Hg; [|discriminate]. injection Hg as <-.
  rewrite !andb_true_iff in E. destruct E as ((((E1 & E2) & E3) & E4) & E5).
  assert (Htr : trace (t0 + 1) [(t0, quorum)]) by (apply (tr_snoc (t0 + 1) [] t0 quorum); [constructor|lia]).
  split; cbn [final world_at fold_left]; try (intros; reflexivity); try (intros; assumption); try lia.
  - split; cbn [w_staking w_votes w_governor gv_delay gv_period gv_quorum]; try assumption; rewrite ?clock_small by lia; try assumption.
    + intros a _ _. unfold ibal. apply Hb.
    + rewrite Hp. apply not_elem_of_empty.
    + rewrite Hp. split; cbn [delegate_of vt_delegates vt_total]; try reflexivity.
      * intros p Hin. now apply elem_of_empty in Hin.
      * intros a. constructor.
      * constructor.
      * intros t a. unfold votes_trace. cbn [vt_votes]. rewrite lookup_empty. cbn [default lookup_at].
        destruct (t0 <=? t); [rewrite bool_decide_false by apply not_elem_of_empty; reflexivity|].
        unfold staked_votes. cbn [w_staking]. rewrite Hp, bool_decide_false by apply not_elem_of_empty. reflexivity.
      * intros t. cbn [lookup_at]. unfold iprove_supply. cbn [w_staking]. rewrite Hs. now destruct (t0 <=? t).
    + lia.
    + lia.
    + intros t. unfold quorum_percent. cbn [w_governor gv_quorum]. rewrite ?clock_small by lia.
      cbn [lookup_at latest last]. destruct (N.leb_spec t0 t); [reflexivity|]. destruct (N.ltb_spec t t0); [reflexivity|lia].
    + unfold quorum_percent. cbn [w_governor gv_quorum latest last]. lia.
  - constructor.
  - intros id p. cbn [w_governor gv_proposals]. rewrite lookup_empty. discriminate.
  - constructor.
Qed.

(** ** Calls *)

(** What the calls do to the proposals. *)
Inductive proposals_change (G : gov_env) (x : staking_ctx) (w : world) (l l' : gmap N proposal) : world_call -> Prop :=
| pc_none c : match c with WStaking _ | WToken _ | WDelegate _ => True | _ => False end -> l' = l ->
    proposals_change G x w l l' c
| pc_propose via actions desc :
    acting w (kx_sender x) via = Ok (actor x via) -> l !! ge_id G actions desc = None ->
    l' = <[ge_id G actions desc := Proposal (actor x via) (kx_time x + gv_delay (w_governor w)) (gv_period (w_governor w))
             false false 0 0 0 ∅]> l ->
    proposals_change G x w l l' (WPropose via actions desc)
| pc_cancel via actions desc p :
    l !! ge_id G actions desc = Some p -> pr_executed p = false -> pr_canceled p = false ->
    kx_time x <= pr_start p -> actor x via = pr_proposer p ->
    l' = <[ge_id G actions desc := Proposal (pr_proposer p) (pr_start p) (pr_duration p) false true (pr_against p) (pr_for p)
             (pr_abstain p) (pr_voted p)]> l ->
    proposals_change G x w l l' (WCancel via actions desc)
| pc_vote via id support p :
    l !! id = Some p -> pr_executed p = false -> pr_canceled p = false ->
    pr_start p < kx_time x <= pr_start p + pr_duration p -> ~ actor x via ∈ pr_voted p -> support <= 2 ->
    (let weight := lookup_at (pr_start p) (votes_trace (w_votes w) (actor x via)) in
     l' = <[id := Proposal (pr_proposer p) (pr_start p) (pr_duration p) false false
               (if support =? 0 then pr_against p + weight else pr_against p)
               (if support =? 1 then pr_for p + weight else pr_for p)
               (if support =? 2 then pr_abstain p + weight else pr_abstain p) ({[actor x via]} ∪ pr_voted p)]> l) ->
    proposals_change G x w l l' (WVote via id support)
| pc_execute actions desc others p :
    l !! ge_id G actions desc = Some p -> pr_executed p = false -> pr_canceled p = false ->
    pr_start p + pr_duration p < kx_time x -> pr_against p < pr_for p ->
    lookup_at (pr_start p) (vt_total (w_votes w)) * lookup_at (pr_start p) (gv_quorum (w_governor w)) / 100
      <= pr_for p + pr_abstain p ->
    l' = <[ge_id G actions desc := Proposal (pr_proposer p) (pr_start p) (pr_duration p) true false (pr_against p) (pr_for p)
             (pr_abstain p) (pr_voted p)]> l ->
    proposals_change G x w l l' (WExecute actions desc others).

Lemma acting_ok w x via a : acting w (kx_sender x) via = Ok a ->
  a = actor x via /\ match via with Some p => p ∈ provers w /\ default 0 (rg_owners (sk_registry (w_staking w)) !! kx_sender x) = p
                     | None => True end.
Proof.
  unfold acting. destruct via as [p|]; intros H; [|injection H as <-; auto]. gov_inv. split; [reflexivity|].
  match goal with H : is_prover _ _ = true |- _ => apply is_prover_in in H end. split; [assumption|lia].
Qed.

Lemma in_state_ok now id f w u : in_state now id f w = Ok u -> exists st, state_of now id w = Ok st /\ f st = true.
Proof. unfold in_state. intros H. gov_inv. eauto. Qed.

(** The state of a proposal. *)
Lemma state_ok now id w st : now < 2 ^ 48 -> state_of now id w = Ok st ->
  exists p, gv_proposals (w_governor w) !! id = Some p /\
  match st with
  | PsExecuted => pr_executed p = true
  | PsCanceled => pr_executed p = false /\ pr_canceled p = true
  | PsPending => pr_executed p = false /\ pr_canceled p = false /\ now <= pr_start p
  | PsActive => pr_executed p = false /\ pr_canceled p = false /\ pr_start p < now <= pr_start p + pr_duration p
  | PsSucceeded => pr_executed p = false /\ pr_canceled p = false /\ pr_start p + pr_duration p < now /\
      pr_against p < pr_for p /\
      lookup_at (pr_start p) (vt_total (w_votes w)) * lookup_at (pr_start p) (gv_quorum (w_governor w)) / 100
      <= pr_for p + pr_abstain p
  | PsDefeated => pr_executed p = false /\ pr_canceled p = false /\ pr_start p + pr_duration p < now /\
      ~ (pr_against p < pr_for p /\
      lookup_at (pr_start p) (vt_total (w_votes w)) * lookup_at (pr_start p) (gv_quorum (w_governor w)) / 100
      <= pr_for p + pr_abstain p)
  end.
Proof.
  intros Hn H. unfold state_of, quorum_at, get_past_supply in H. rewrite clock_small in H by exact Hn.
  destruct (gv_proposals (w_governor w) !! id) as [p|] eqn:E; [|discriminate]. cbn [gv_option gv_bind] in H.
  exists p. split; [reflexivity|]. 
  destruct (pr_executed p); [injection H as <-; reflexivity|]. destruct (pr_canceled p); [injection H as <-; auto|].
  destruct (pr_start p =? 0); [discriminate|]. destruct (N.leb_spec now (pr_start p)); [injection H as <-; auto|].
  destruct (N.leb_spec now (pr_start p + pr_duration p)); [injection H as <-; repeat split; lia|].
  destruct (N.ltb_spec (pr_start p) now); [|lia]. cbn [gv_option gv_bind] in H.
  destruct (_ && _) eqn:Eb; injection H as <-; repeat (split; [reflexivity|]); (split; [lia|]).
  - apply andb_true_iff in Eb as [E1 E2]. apply N.leb_le in E1. apply N.ltb_lt in E2. auto.
  - intros [Ha Hb]. apply N.ltb_lt in Ha. apply N.leb_le in Hb. rewrite Ha, Hb in Eb. discriminate.
Qed.

Lemma proposals_step G now past ps pq x c w w' :
  ginv G now past ps pq w -> kx_time x = now -> by_anyone G w x c -> world_run G x c w = Ok w' ->
  (forall id p, gv_proposals (w_governor w) !! id = Some p -> pr_start p <> 0) ->
  proposals_change G x w (gv_proposals (w_governor w)) (gv_proposals (w_governor w')) c.
Proof.
  intros Hg Ht [Ha Hc] H Hnz. pose proof (gi_time _ _ _ _ _ _ Hg) as Hnow.
  destruct c as [c|o|d|via actions desc|via actions desc|via id support|actions desc others]; cbn [world_run] in H.
  - constructor; [exact I|]. unfold staking_step in H. destruct (staking_run _ _ _ _) as [[s evs]|]; [|discriminate].
    cbv zeta in H. gov_inv. destruct c; gov_inv; reflexivity.
  - constructor; [exact I|]. unfold token_step in H. destruct (run_token_op _ _); [|discriminate]. injection H as <-. reflexivity.
  - constructor; [exact I|]. gov_inv. reflexivity.
  - gov_inv. match goal with H : acting _ _ _ = Ok ?a |- _ => pose proof H as Hact; apply acting_ok in H as [-> _] end.
    unfold propose in H. cbv zeta in H. gov_inv. rewrite clock_small in * by lia.
    apply pc_propose; [exact Hact| |reflexivity].
    destruct (gv_proposals (w_governor w) !! ge_id G actions desc) as [p|] eqn:E; [|reflexivity].
    pose proof (Hnz _ _ E). destruct (N.eqb_spec (pr_start p) 0); [contradiction|discriminate].
  - gov_inv. match goal with H : acting _ _ _ = Ok ?a |- _ => pose proof H as Hact; apply acting_ok in H as [-> _] end.
    unfold cancel_proposal in H. cbv zeta in H. gov_inv.
    match goal with H : in_state _ _ _ _ = Ok _ |- _ => apply in_state_ok in H as (st & Es & Hst) end.
    destruct st; try discriminate Hst. apply state_ok in Es as (p' & Ep & E1 & E2 & E3); [|lia].
    match goal with H : gv_proposals _ !! _ = Some ?q |- _ => rewrite Ep in H; injection H as <- end.
    eapply pc_cancel; [exact Ep|exact E1|exact E2|exact E3|lia|].
    cbn [w_set_governor w_governor gv_set_proposal gv_proposals]. now rewrite E1.
  - gov_inv. match goal with H : acting _ _ _ = Ok ?a |- _ => pose proof H as Hact; apply acting_ok in H as [-> _] end.
    unfold cast_vote, get_past_votes in H. cbv zeta in H. rewrite (clock_small (kx_time x)) in H by lia. gov_inv.
    match goal with H : in_state _ _ _ _ = Ok _ |- _ => apply in_state_ok in H as (st & Es & Hst) end.
    destruct st; try discriminate Hst. apply state_ok in Es as (p' & Ep & E1 & E2 & E3); [|lia].
    match goal with H : gv_proposals _ !! _ = Some ?q |- _ => rewrite Ep in H; injection H as <- end.
    match goal with H : (if ?b then _ else _) = Some _ |- _ => destruct b; [injection H as <-|discriminate H] end.
    eapply pc_vote; [exact Ep|exact E1|exact E2|exact E3| |lia|].
    + match goal with H : negb (bool_decide _) = true |- _ => apply negb_true_iff, bool_decide_eq_false in H; exact H end.
    + cbv zeta. cbn [w_set_governor w_governor gv_set_proposal gv_proposals]. now rewrite E1, E2.
  - unfold execute_proposal in H. cbv zeta in H. gov_inv.
    match goal with H : in_state _ _ _ _ = Ok _ |- _ => apply in_state_ok in H as (st & Es & Hst) end.
    destruct st; try discriminate Hst. apply state_ok in Es as (p' & Ep & E1 & E2 & E3 & E4 & E5); [|lia].
    match goal with H : gv_proposals _ !! _ = Some ?q |- _ => rewrite Ep in H; injection H as <- end.
    eapply pc_execute; [exact Ep|exact E1|exact E2|exact E3|exact E4|exact E5|].
    apply (run_actions_ok G now past ps pq) in H as [_ ->]; [|apply ginv_governor; try apply Hg; reflexivity|exact Ht|exact Hc].
    cbn [w_set_governor w_governor gv_set_proposal gv_proposals]. now rewrite E2.
Qed.

Lemma counted_snoc w k l b :
  counted w k (l ++ [b]) = counted w k l + if snd b =? k then staked_votes w (fst b) else 0.
Proof.
  unfold counted, list_total. induction l as [|y l IH]; cbn [app fold_right]; [lia|]. rewrite IH. lia.
Qed.

Lemma start_nonzero G t0 w0 log w now id p : run_inv G t0 w0 log w now ->
  gv_proposals (w_governor w) !! id = Some p -> 0 < pr_start p.
Proof.
  intros Hri Hp. destruct (ri_some _ _ _ _ _ _ Hri id p Hp) as [D _].
  destruct (ds_proposed _ _ _ _ _ D) as (l1 & x & via & ac & de & w1 & l2 & El & _ & _ & _ & _ & Es & _).
  pose proof (ri_times _ _ _ _ _ _ Hri) as Ht. rewrite El in Ht. apply Forall_app in Ht as [_ Ht].
  apply Forall_cons in Ht as [Ht _]. cbn [entry_when] in Ht. pose proof (ri_t0 _ _ _ _ _ _ Hri). lia.
Qed.

(** The votes at the start of a proposal that has started. *)
Lemma past_votes G t0 w0 log w now t a : run_inv G t0 w0 log w now -> t < now ->
  lookup_at t (votes_trace (w_votes w) a) = staked_votes (world_at w0 log t) a /\
  lookup_at t (vt_total (w_votes w)) = iprove_supply (world_at w0 log t) /\
  lookup_at t (gv_quorum (w_governor w)) = if t <? t0 then 0 else quorum_percent (world_at w0 log t).
Proof.
  intros Hri Ht. pose proof (ri_ginv _ _ _ _ _ _ Hri) as Hg. split; [|split].
  - rewrite (vo_votes _ _ _ _ _ _ _ (gi_votes _ _ _ _ _ _ Hg)). destruct (N.leb_spec now t); [lia|reflexivity].
  - rewrite (vo_supply _ _ _ _ _ _ _ (gi_votes _ _ _ _ _ _ Hg)). destruct (N.leb_spec now t); [lia|reflexivity].
  - rewrite (gi_quorum _ _ _ _ _ _ Hg). destruct (N.leb_spec now t); [lia|reflexivity].
Qed.

(** The other proposals after a call about one of them. *)
Lemma step_others G t0 w0 log w now e id0 (l' : gmap N proposal) p0 :
  run_inv G t0 w0 log w now -> entry_when e = now -> (forall id, id <> id0 -> concerns G id e = false) ->
  l' = <[id0 := p0]> (gv_proposals (w_governor w)) ->
  described G w0 (log ++ [e]) id0 p0 /\ (ballots id0 (log ++ [e]) <> [] -> pr_start p0 < now) ->
  (forall id p, l' !! id = Some p ->
    described G w0 (log ++ [e]) id p /\ (ballots id (log ++ [e]) <> [] -> pr_start p < now)) /\
  (forall id, l' !! id = None -> Forall (fun e => concerns G id e = false) (log ++ [e])).
Proof.
  intros Hri Hn Hc -> H0. split.
  - intros id p. destruct (N.eq_dec id id0) as [->|Hne].
    + rewrite lookup_insert. intros [= <-]. exact H0.
    + rewrite lookup_insert_ne by congruence. intros Hp. destruct (ri_some _ _ _ _ _ _ Hri id p Hp) as [D Hb].
      eapply described_other; eauto.
  - intros id. destruct (N.eq_dec id id0) as [->|Hne]; [now rewrite lookup_insert|].
    rewrite lookup_insert_ne by congruence. intros Hp. apply Forall_app.
    split; [exact (ri_none _ _ _ _ _ _ Hri id Hp)|]. repeat constructor. auto.
Qed.

Lemma ballots_none G id log : Forall (fun e => concerns G id e = false) log ->
  ballots id log = [] /\ occurs (executes G id) log = 0%nat /\ occurs (cancels G id) log = 0%nat /\
  forall p, Forall (in_time G id p) log.
Proof.
  induction 1 as [|e log He _ (IH1 & IH2 & IH3 & IH4)]; [repeat split; constructor|].
  apply concerns_false in He as (C1 & C2 & C3 & C4 & C5). split; [|split; [|split]].
  - change (e :: log) with ([e] ++ log). unfold ballots in *. rewrite flat_map_app. now rewrite C4, IH1.
  - unfold occurs in *. cbn [List.filter]. now rewrite C3.
  - unfold occurs in *. cbn [List.filter]. now rewrite C2.
  - intros p. constructor; auto.
Qed.

Lemma step_proposals G t0 w0 log w now x c w' :
  run_inv G t0 w0 log w now -> kx_time x = now ->
  proposals_change G x w (gv_proposals (w_governor w)) (gv_proposals (w_governor w')) c ->
  let e := WAccepted x c w' in
  (forall id p, gv_proposals (w_governor w') !! id = Some p ->
    described G w0 (log ++ [e]) id p /\ (ballots id (log ++ [e]) <> [] -> pr_start p < now)) /\
  (forall id, gv_proposals (w_governor w') !! id = None -> Forall (fun e => concerns G id e = false) (log ++ [e])).
Proof.
  intros Hri Ht Hc e. assert (He : entry_when e = now) by exact Ht.
  inversion Hc as [c0 Hkind Heq|via actions desc Hact Hnew Heq|via actions desc p Hp Hex Hca Hle Hown Heq
    |via id support p Hp Hex Hca Hti Hvo Hsu Heq|actions desc others p Hp Hex Hca Hti Hfor Hq Heq]; subst c0 || subst c.
  - assert (Hcn : forall id, concerns G id e = false).
    { intros id. unfold e, concerns, proposes, cancels, executes. destruct c; try contradiction; reflexivity. }
    rewrite Heq. split.
    + intros id p Hp. destruct (ri_some _ _ _ _ _ _ Hri id p Hp) as [D Hb]. eapply described_other; eauto.
    + intros id Hp. apply Forall_app. split; [exact (ri_none _ _ _ _ _ _ Hri id Hp)|]. repeat constructor. auto.
  - set (id0 := ge_id G actions desc) in *.
    eapply step_others; [exact Hri|exact He| |exact Heq|].
    { intros id Hne. unfold e, concerns. cbn [proposes cancels executes]. fold id0. destruct (N.eqb_spec id0 id); [congruence|reflexivity]. }
    pose proof (ri_none _ _ _ _ _ _ Hri id0 Hnew) as Hnone.
    destruct (ballots_none G id0 log Hnone) as (B1 & B2 & B3 & B4).
    assert (Eb : ballots id0 (log ++ [e]) = []) by (rewrite ballots_snoc, B1; reflexivity).
    split; [|rewrite Eb; intros []; reflexivity].
    split; rewrite ?Eb; cbn [pr_proposer pr_start pr_duration pr_executed pr_canceled pr_against pr_for pr_abstain pr_voted];
      try reflexivity; try constructor.
    + exists log, x, via, actions, desc, w', []. rewrite (ri_final _ _ _ _ _ _ Hri). split; [reflexivity|].
      split; [reflexivity|]. split; [exact Hnone|]. split; [constructor|]. repeat split; reflexivity.
    + intros Hin. now apply elem_of_empty in Hin.
    + intros Hin. apply elem_of_nil in Hin as [].
    + apply Forall_app. split; [apply B4|]. repeat constructor.
    + rewrite occurs_snoc, B2. reflexivity.
    + rewrite occurs_snoc, B3. reflexivity.
  - set (id0 := ge_id G actions desc) in *.
    eapply step_others; [exact Hri|exact He| |exact Heq|].
    { intros id Hne. unfold e, concerns. cbn [proposes cancels executes]. fold id0. destruct (N.eqb_spec id0 id); [congruence|reflexivity]. }
    destruct (ri_some _ _ _ _ _ _ Hri id0 p Hp) as [D Hb].
    assert (Eb : ballots id0 (log ++ [e]) = []).
    { rewrite ballots_snoc. cbn [ballots flat_map app]. rewrite app_nil_r. destruct (ballots id0 log); [reflexivity|].
      specialize (Hb ltac:(discriminate)). lia. }
    assert (Eb0 : ballots id0 log = []) by (rewrite ballots_snoc in Eb; apply app_nil in Eb; apply Eb).
    split; [|rewrite Eb; intros []; reflexivity].
    destruct D as [D1 D2 D3 D4 D5 D6 D7 D8 D9 D10 D11]. rewrite Eb0 in *.
    split; rewrite ?Eb; cbn [pr_proposer pr_start pr_duration pr_executed pr_canceled pr_against pr_for pr_abstain pr_voted]; try assumption.
    + destruct D1 as (l1 & x1 & via1 & ac & de & w1 & l2 & El & Hid & H1 & H2 & H3).
      exists l1, x1, via1, ac, de, w1, (l2 ++ [e]). rewrite El, <- app_assoc. cbn [app]. split; [reflexivity|].
      split; [exact Hid|]. split; [exact H1|]. split; [apply Forall_app; split; [exact H2|repeat constructor]|exact H3].
    + apply Forall_app. split.
      * eapply Forall_impl; [exact D8|]. intros e0. unfold in_time. destruct e0 as [? [] ?|]; auto.
      * apply Forall_singleton. unfold e. cbn [in_time pr_start]. intros _. lia.
    + rewrite occurs_snoc, D9, Hex. reflexivity.
    + rewrite occurs_snoc, D10, Hca. unfold e. cbn [cancels]. fold id0. now rewrite N.eqb_refl.
    + reflexivity.
  - eapply step_others; [exact Hri|exact He| |exact Heq|].
    { intros id1 Hne. unfold e, concerns. cbn [proposes cancels executes]. destruct (N.eqb_spec id id1); [congruence|reflexivity]. }
    destruct (ri_some _ _ _ _ _ _ Hri id p Hp) as [D Hb].
    split; [|intros _; cbn [pr_start]; lia].
    destruct D as [D1 D2 D3 D4 D5 D6 D7 D8 D9 D10 D11].
    assert (Eb : ballots id (log ++ [e]) = ballots id log ++ [(actor x via, support)])
      by (rewrite ballots_snoc; cbn [ballots flat_map app e]; now rewrite N.eqb_refl).
    assert (Ew : world_at w0 (log ++ [e]) (pr_start p) = world_at w0 log (pr_start p)).
    { rewrite world_at_snoc. cbn [e]. destruct (N.leb_spec (kx_time x) (pr_start p)); [lia|reflexivity]. }
    destruct (past_votes _ _ _ _ _ _ (pr_start p) (actor x via) Hri ltac:(lia)) as (Ev & _). 
    split; rewrite ?Eb; cbn [pr_proposer pr_start pr_duration pr_executed pr_canceled pr_against pr_for pr_abstain pr_voted];
      try assumption; rewrite ?Ew, ?counted_snoc; cbn [fst snd].
    + destruct D1 as (l1 & x1 & via1 & ac & de & w1 & l2 & El & Hid & H1 & H2 & H3).
      exists l1, x1, via1, ac, de, w1, (l2 ++ [e]). rewrite El, <- app_assoc. cbn [app]. split; [reflexivity|].
      split; [exact Hid|]. split; [exact H1|]. split; [apply Forall_app; split; [exact H2|repeat constructor]|exact H3].
    + rewrite map_app. cbn [map fst]. apply NoDup_app. split; [exact D2|]. split; [|apply NoDup_singleton].
      intros y Hy Hy2. apply elem_of_list_singleton in Hy2 as ->. apply Hvo, D3, Hy.
    + intros y. rewrite elem_of_union, elem_of_singleton, map_app, elem_of_app, D3. cbn [map fst].
      rewrite elem_of_list_singleton. tauto.
    + apply Forall_app. split; [exact D4|]. repeat constructor. exact Hsu.
    + rewrite Ev, <- D5. destruct (support =? 0); lia.
    + rewrite Ev, <- D6. destruct (support =? 1); lia.
    + rewrite Ev, <- D7. destruct (support =? 2); lia.
    + apply Forall_app. split.
      * eapply Forall_impl; [exact D8|]. intros e0. unfold in_time. destruct e0 as [? [] ?|]; auto.
      * apply Forall_singleton. unfold e. cbn [in_time pr_start pr_duration]. intros _. lia.
    + rewrite occurs_snoc, D9, Hex. reflexivity.
    + rewrite occurs_snoc, D10, Hca. reflexivity.
    + reflexivity.
  - set (id0 := ge_id G actions desc) in *.
    eapply step_others; [exact Hri|exact He| |exact Heq|].
    { intros id Hne. unfold e, concerns. cbn [proposes cancels executes]. fold id0. destruct (N.eqb_spec id0 id); [congruence|reflexivity]. }
    destruct (ri_some _ _ _ _ _ _ Hri id0 p Hp) as [D Hb].
    assert (Eb : ballots id0 (log ++ [e]) = ballots id0 log)
      by (rewrite ballots_snoc; cbn [ballots flat_map app e]; now rewrite app_nil_r).
    assert (Ew : world_at w0 (log ++ [e]) (pr_start p) = world_at w0 log (pr_start p)).
    { rewrite world_at_snoc. cbn [e]. destruct (N.leb_spec (kx_time x) (pr_start p)); [lia|reflexivity]. }
    split; [|intros _; cbn [pr_start]; lia].
    destruct D as [D1 D2 D3 D4 D5 D6 D7 D8 D9 D10 D11].
    split; rewrite ?Eb; cbn [pr_proposer pr_start pr_duration pr_executed pr_canceled pr_against pr_for pr_abstain pr_voted];
      rewrite ?Ew; try assumption.
    + destruct D1 as (l1 & x1 & via1 & ac & de & w1 & l2 & El & Hid & H1 & H2 & H3).
      exists l1, x1, via1, ac, de, w1, (l2 ++ [e]). rewrite El, <- app_assoc. cbn [app]. split; [reflexivity|].
      split; [exact Hid|]. split; [exact H1|]. split; [apply Forall_app; split; [exact H2|repeat constructor]|exact H3].
    + apply Forall_app. split.
      * eapply Forall_impl; [exact D8|]. intros e0. unfold in_time. destruct e0 as [? [] ?|]; auto.
      * apply Forall_singleton. unfold e. cbn [in_time pr_start pr_duration]. intros _. lia.
    + rewrite occurs_snoc, D9, Hex. unfold e. cbn [executes]. fold id0. now rewrite N.eqb_refl.
    + rewrite occurs_snoc, D10, Hca. reflexivity.
    + reflexivity.
Qed.

(** ** Runs *)

Lemma run_ok G t0 w0 log w now : gov_run G t0 w0 log w now -> run_inv G t0 w0 log w now.
Proof.
  induction 1 as [Hs|log w now now' _ IH Hle Hlt|log w now x c w' Hr IH Ht Hby Hw|log w now x c err Hr IH Ht Hby Hw].
  - now apply start_inv.
  - destruct IH as [I1 I2 I3 I4 I5 I6 I7 I8]. split; try assumption.
    + apply ginv_wait with (now := now); try assumption.
      * intros t a H1 H2. now rewrite I3.
      * intros t H1 H2. now rewrite I3.
      * intros t H1 H2. rewrite I3 by assumption. destruct (N.ltb_spec t t0); [lia|reflexivity].
    + intros t H1. apply I3. lia.
    + lia.
    + eapply Forall_impl; [exact I6|]. cbn. intros e. lia.
    + intros id p Hp. destruct (I7 id p Hp) as [D Hb]. split; [exact D|]. intros Hb'. specialize (Hb Hb'). lia.
  - pose proof (start_nonzero G t0 w0 log w now) as Hnz.
    pose proof IH as [I1 I2 I3 I4 I5 I6 I7 I8].
    pose proof (world_run_ok _ _ _ _ _ _ _ _ _ I1 Ht Hby Hw) as Hg'.
    assert (Hpc := proposals_step _ _ _ _ _ _ _ _ _ I1 Ht Hby Hw).
    assert (Hpc' : proposals_change G x w (gv_proposals (w_governor w)) (gv_proposals (w_governor w')) c).
    { apply Hpc. intros id p Hp. pose proof (Hnz id p IH Hp). lia. }
    destruct (step_proposals _ _ _ _ _ _ _ _ _ IH Ht Hpc') as [J1 J2].
    assert (Hat : forall t, world_at w0 (log ++ [WAccepted x c w']) t = if now <=? t then w' else world_at w0 log t)
      by (intros t; rewrite world_at_snoc, Ht; reflexivity).
    split; try assumption.
    + eapply ginv_past; [| | |exact Hg']; cbn beta; intros t; intros; rewrite Hat; destruct (N.leb_spec now t); try lia; reflexivity.
    + rewrite final_snoc. reflexivity.
    + intros t H1. rewrite Hat. destruct (N.leb_spec now t); [reflexivity|lia].
    + intros t. rewrite Hat. destruct (now <=? t); [exact (gi_stk _ _ _ _ _ _ Hg')|apply I4].
    + apply Forall_app. split; [exact I6|]. repeat constructor; cbn [entry_when]; lia.
  - destruct IH as [I1 I2 I3 I4 I5 I6 I7 I8].
    assert (Hat : forall t, world_at w0 (log ++ [WReverted x c err]) t = world_at w0 log t)
      by (intros t; now rewrite world_at_snoc).
    split; try assumption.
    + eapply ginv_past; [| | |exact I1]; cbn beta; intros; rewrite Hat; reflexivity.
    + rewrite final_snoc. exact I2.
    + intros t H1. rewrite Hat. auto.
    + intros t. rewrite Hat. apply I4.
    + apply Forall_app. split; [exact I6|]. repeat constructor; cbn [entry_when]; lia.
    + intros id p Hp. destruct (I7 id p Hp) as [D Hb]. eapply described_other; [exact D|exact Hb|exact Ht|reflexivity].
    + intros id Hp. apply Forall_app. split; [auto|]. repeat constructor.
Qed.
