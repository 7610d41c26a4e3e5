(** Where the governor is the owner the stakers decide. *)
From Verif Require Import GovernorRun Proofs_Governor.
From Verif Require Export NetworkRules GovernedSpec.
From Coq Require Import Lia ZifyBool ZifyN ZifyNat.
Open Scope N_scope.

Lemma net_at_snoc n0 log e t : net_at n0 (log ++ [e]) t = match e with
  | NAccepted x _ _ n' => if nx_time x <=? t then n' else net_at n0 log t
  | NReverted _ _ _ => net_at n0 log t
  end.
Proof. unfold net_at. rewrite fold_left_app. reflexivity. Qed.
Lemma net_final_run Y t0 n0 log n now : net_run Y t0 n0 log n now -> n = net_final n0 log.
Proof. induction 1; unfold net_final in *; rewrite ?fold_left_app; auto. Qed.
Lemma net_at_now Y t0 n0 log n now t : net_run Y t0 n0 log n now -> now <= t -> net_at n0 log t = n.
Proof.
  intros H. revert t. induction H as [Hs|log n now now' H IH H1 H2|log n now x c i n' H IH Ht Hb Hr|log n now x c e H IH Ht Hb Hr];
    intros t Hle; rewrite ?net_at_snoc; auto.
  - apply IH. lia.
  - destruct (N.leb_spec (nx_time x) t); [reflexivity|lia].
Qed.

(** The states of a log of governance and those of the log of all contracts. *)
Definition same_states (n0 : network) (log : list net_entry) (g : list gov_entry) : Prop :=
  (forall t, world_at (nw_world n0) g t = nw_world (net_at n0 log t)) /\
  final (nw_world n0) g = nw_world (net_final n0 log).

Lemma world_at_piece w0 g l t now : Forall (fun e => entry_when e = now) l -> t < now ->
  world_at w0 (g ++ l) t = world_at w0 g t.
Proof.
  intros Hl Hlt. induction l as [|e l IH] using rev_ind; [now rewrite app_nil_r|].
  apply Forall_app in Hl as [Hl He]. apply (proj1 (Forall_singleton _ _)) in He. rewrite app_assoc, world_at_snoc, (IH Hl).
  destruct e as [x c w'|]; [|reflexivity]. cbn in He. destruct (N.leb_spec (kx_time x) t); [lia|reflexivity].
Qed.

(** A run of governance goes with every run of all contracts: same states, same votes, same proposals. *)
Lemma net_gov_same Y t0 n0 log n now : net_run Y t0 n0 log n now ->
  exists g, gov_run (net_gov Y) t0 (nw_world n0) g (nw_world n) now /\ same_states n0 log g /\
    (forall id, ballots id g = net_ballots id log) /\
    (forall g0 y via actions desc w1 g1, g = g0 ++ WAccepted y (WPropose via actions desc) w1 :: g1 ->
      exists l0 x i m l1, log = l0 ++ NAccepted x (CWorld (WPropose via actions desc)) i m :: l1 /\
        kx_sender y = nx_sender x /\ kx_time y = nx_time x /\ same_states n0 l0 g0) /\
    (forall l0 x via actions desc i m l1, log = l0 ++ NAccepted x (CWorld (WPropose via actions desc)) i m :: l1 ->
      exists g0 y w1 g1, g = g0 ++ WAccepted y (WPropose via actions desc) w1 :: g1 /\ kx_time y = nx_time x /\ same_states n0 l0 g0) /\
    Forall (fun e => e ∈ world_log log \/ vapp_does Y e) g.
Proof.
  intros H. pose proof (net_addresses _ _ _ _ _ _ H) as Ha.
  induction H as [Hs|log n now now' H IH H1 H2|log n now x c inputs n' H IH Ht Hb Hr|log n now x c e H IH Ht Hb Hr].
  - exists []. split; [apply gr_start, net_gov_start, Hs|]. split; [split; [intros t|]; reflexivity|]. split; [reflexivity|].
    split; [intros g0 y via ac de w1 g1 He; destruct g0; discriminate|].
    split; [intros l0 y via ac de i m l1 He; destruct l0; discriminate|constructor].
  - destruct IH as (g & Hg & Hr). exists g. split; [eapply gr_wait; eassumption|exact Hr].
  - destruct IH as (g & Hg & [S1 S2] & Hbal & Hsp & Hsp2 & Hal). destruct (call_ext Y Ha n x c inputs n' Hb Hr) as (l & Hl & _ & _ & _ & Tl & Pl).
    rewrite Ht in Hl, Tl. pose proof (Hl _ _ _ Hg) as Hg'. exists (g ++ l). split; [exact Hg'|].
    assert (Hbl : forall id, ballots id l = net_ballots id [NAccepted x c inputs n']).
    { intros id. destruct c as [c|c]; [|rewrite Pl; now destruct c].
      cbn. clear -Pl. induction Pl as [|e l He Hl IH]; [reflexivity|]. cbn. unfold ballots in IH. rewrite IH.
      destruct e as [y c0 w|]; [|contradiction]. destruct c0; try contradiction; reflexivity. }
    assert (Hwl : forall e, e ∈ world_log log -> e ∈ world_log (log ++ [NAccepted x c inputs n'])).
    { intros e. unfold world_log. rewrite flat_map_app, elem_of_app. auto. }
    split; [split|split; [|split; [|split]]].
    + intros t. rewrite net_at_snoc, Ht. destruct (N.leb_spec now t) as [Hle|Hlt].
      * destruct (run_ok _ _ _ _ _ _ Hg') as [_ _ Hat _ _ _ _ _]. now apply Hat.
      * rewrite (world_at_piece _ _ _ _ now Tl Hlt). apply S1.
    + unfold net_final. rewrite fold_left_app. cbn. destruct (run_ok _ _ _ _ _ _ Hg') as [_ Hf _ _ _ _ _ _]. now rewrite Hf.
    + intros id. unfold ballots, net_ballots in *. rewrite !flat_map_app, Hbal, Hbl. reflexivity.
    + intros g0 y via ac de w1 g1 He. apply app_eq_inv in He as [(k & -> & He)|(k & -> & He)].
      * destruct k as [|e k].
        -- cbn in He. rewrite app_nil_r in *. destruct c as [c|c].
           ++ rewrite <- He in Pl. apply Forall_cons in Pl as [Pl _]. contradiction.
           ++ rewrite Pl in He. cbn in He. injection He; intros; subst.
              exists log, x, inputs, n', []. repeat split; assumption.
        -- injection He as <- ->. destruct (Hsp g0 y via ac de w1 k eq_refl) as (l0 & x0 & i & m & l1 & -> & R).
           exists l0, x0, i, m, (l1 ++ [NAccepted x c inputs n']). split; [now rewrite <- app_assoc|exact R].
      * destruct c as [c|c].
        -- rewrite He in Pl. apply Forall_app in Pl as [_ Pl]. apply Forall_cons in Pl as [Pl _]. contradiction.
        -- rewrite Pl in He. destruct k as [|e k]; [|destruct k; discriminate]. cbn in He. injection He; intros; subst.
           rewrite app_nil_r. exists log, x, inputs, n', []. repeat split; assumption.
    + intros l0 y via ac de i m l1 He. destruct l1 as [|e l1 _] using rev_ind.
      * apply app_inj_tail in He as [-> He]. injection He as -> -> -> ->. rewrite Pl.
        exists g. do 2 eexists. exists []. split; [reflexivity|]. split; [reflexivity|split; assumption].
      * rewrite app_comm_cons, app_assoc in He. apply app_inj_tail in He as [-> _].
        destruct (Hsp2 _ _ _ _ _ _ _ _ eq_refl) as (g0 & z & w1 & g1 & -> & R).
        exists g0, z, w1, (g1 ++ l). split; [now rewrite <- app_assoc|exact R].
    + apply Forall_app. split; [eapply Forall_impl; [exact Hal|]; intros e [He|He]; auto|].
      destruct c as [c|c]; [eapply Forall_impl; [exact Pl|]; auto|]. rewrite Pl. constructor; [left|constructor].
      unfold world_log. rewrite flat_map_app, elem_of_app. right. now apply elem_of_list_singleton.
  - destruct IH as (g & Hg & [S1 S2] & Hbal & Hsp & Hsp2 & Hal). exists g. split; [exact Hg|].
    split; [split|split; [|split; [|split]]].
    + intros t. rewrite net_at_snoc. apply S1.
    + unfold net_final. rewrite fold_left_app. exact S2.
    + intros id. unfold net_ballots in *. rewrite flat_map_app, Hbal. cbn. now rewrite app_nil_r.
    + intros g0 y via ac de w1 g1 He. destruct (Hsp g0 y via ac de w1 g1 He) as (l0 & x0 & i & m & l1 & -> & R).
      exists l0, x0, i, m, (l1 ++ [NReverted x c e]). split; [now rewrite <- app_assoc|exact R].
    + intros l0 y via ac de i m l1 He. destruct l1 as [|e0 l1 _] using rev_ind; [apply app_inj_tail in He as [_ He]; discriminate|].
      rewrite app_comm_cons, app_assoc in He. apply app_inj_tail in He as [-> _]. exact (Hsp2 _ _ _ _ _ _ _ _ eq_refl).
    + unfold world_log. rewrite flat_map_app, app_nil_r. exact Hal.
Qed.

(** The entries of a run, each in the state before it. *)
Lemma net_prefix Y t0 n0 log n now : net_run Y t0 n0 log n now ->
  forall l1 x c i m l2, log = l1 ++ NAccepted x c i m :: l2 ->
  exists n1, net_run Y t0 n0 l1 n1 (nx_time x) /\ net_by_anyone Y n1 x c /\ net_run_call Y x c n1 = Ok m.
Proof.
  induction 1 as [Hs|log n now now' H IH H1 H2|log n now x c i n' H IH Ht Hb Hr|log n now x c e H IH Ht Hb Hr];
    intros l1 x0 c0 i0 m0 l2 Heq.
  - destruct l1; discriminate.
  - eapply IH. exact Heq.
  - destruct l2 as [|e l2 _] using rev_ind.
    + apply app_inj_tail in Heq as [-> He]. injection He as -> -> -> ->. exists n. rewrite Ht. auto.
    + rewrite app_comm_cons, app_assoc in Heq. apply app_inj_tail in Heq as [-> _]. eapply IH. reflexivity.
  - destruct l2 as [|e0 l2 _] using rev_ind.
    + apply app_inj_tail in Heq as [_ He]. discriminate.
    + rewrite app_comm_cons, app_assoc in Heq. apply app_inj_tail in Heq as [-> _]. eapply IH. reflexivity.
Qed.

Lemma C89_passed_proof Y t0 n0 log n now l1 x actions desc others i m l2 :
  forall (Hrun : net_run Y t0 n0 log n now)
    (Hlog : log = l1 ++ NAccepted x (CWorld (WExecute actions desc others)) i m :: l2),
  passed Y n0 l1 (nx_time x) (ge_id (net_gov Y) actions desc).
Proof.
  intros H Hl. destruct (net_prefix _ _ _ _ _ _ H _ _ _ _ _ _ Hl) as (n1 & H1 & Hb & Hr). clear H Hl log n now l2.
  pose proof (net_addresses _ _ _ _ _ _ H1) as Ha.
  destruct (net_gov_same _ _ _ _ _ _ H1) as (g & Hg & [S1 S2] & Hbal & Hsp & _).
  cbn [net_run_call] in Hr. apply executed in Hr as (_ & _ & Hr).
  pose proof (by_anyone_world Y n1 x true _ Hb) as Hb'.
  pose proof (gr_accepted _ _ _ _ _ _ (world_ctx (nx_sender x) x true) _ _ Hg eq_refl Hb' Hr) as Hg'.
  destruct (C80_passed_proof _ _ _ _ _ _ g _ actions desc others _ [] Hg' eq_refl)
    as (_ & _ & g0 & y & via & ac & de & w1 & g1 & E & Hid & Hmay & Hth & Hst & Hmaj & Hq).
  destruct (Hsp _ _ _ _ _ _ _ E) as (l0 & x0 & j & m0 & l01 & El & Es & Et & [T1 T2]).
  assert (Hnd : NoDup (map fst (ballots (ge_id (net_gov Y) actions desc) g))).
  { pose proof (C80_record_proof _ _ _ _ _ _ (ge_id (net_gov Y) actions desc) Hg) as Hrec.
    destruct (gv_proposals _ !! _) as [p|]; [exact (ds_once _ _ _ _ _ Hrec)|].
    rewrite E in Hrec. apply Forall_app in Hrec as [_ Hrec]. apply Forall_cons in Hrec as [Hrec _].
    unfold concerns in Hrec. cbn [proposes] in Hrec. rewrite Hid, N.eqb_refl in Hrec. discriminate. }
  rewrite Hbal in Hnd.
  assert (Ea : actor y via = voter x0 via) by (destruct via; [reflexivity|exact Es]).
  rewrite T1, T2, Ea, Et in *. rewrite !S1, !Hbal in *.
  exists l0, x0, via, ac, de, j, m0, l01. split; [exact El|]. split; [exact Hid|]. split; [|cbv zeta; auto].
  destruct via as [p|]; [|exact I]. unfold may_act in Hmay. rewrite Es in Hmay. unfold prover_of. now rewrite Hmay.
Qed.

Lemma Exists_split {A} (P : A -> Prop) l : Exists P l -> exists l1 e l2, l = l1 ++ e :: l2 /\ P e.
Proof.
  induction 1 as [e l H|e l _ (l1 & e' & l2 & -> & H)]; [exists [], e, l; auto|]. exists (e :: l1), e', l2. auto.
Qed.

Lemma C89_settlement_proof Y t0 n0 log n now log' n' now' :
  forall (Hrun : net_run Y t0 n0 log n now) (Hrun' : net_run Y t0 n0 (log ++ log') n' now')
    (Hgoverned : va_owner (nw_vapp n) = ne_governor Y),
  (settings (nw_vapp n') = settings (nw_vapp n) /\ Forall no_fork (settlement Y log')) \/
  exists l1 x actions desc others i m l2,
    log' = l1 ++ NAccepted x (CWorld (WExecute actions desc others)) i m :: l2 /\
    Exists (fun a => match a with GaVApp (CAdmin _) | GaVApp (CFork _ _) => True | _ => False end) actions /\
    passed Y n0 (log ++ l1) (nx_time x) (ge_id (net_gov Y) actions desc).
Proof.
  intros H H' Ho. destruct (C88_settlement_proof _ _ _ _ _ _ _ _ _ H H') as [C|C]; [now left|right].
  rewrite Ho in C. apply Exists_split in C as (l1 & e & l2 & -> & He). rewrite app_assoc in H'.
  destruct e as [x c i m|]; [|contradiction].
  destruct (net_prefix _ _ _ _ _ _ H' _ _ _ _ _ _ eq_refl) as (n1 & _ & [Hacts _] & _).
  assert (Hne : nx_sender x <> ne_governor Y) by (unfold net_acts in Hacts; tauto).
  destruct c as [[]|[]]; cbn in He; try contradiction. destruct He as [_ He].
  do 8 eexists. split; [reflexivity|]. split; [exact He|]. eapply C89_passed_proof; [exact H'|reflexivity].
Qed.

Lemma C89_staking_proof Y t0 n0 log n now log' n' now' :
  forall (Hrun : net_run Y t0 n0 log n now) (Hrun' : net_run Y t0 n0 (log ++ log') n' now')
    (Hgoverned : sk_owner (w_staking (nw_world n)) = ne_governor Y),
  staking_rules n' = staking_rules n \/
  exists l1 x actions desc others i m l2,
    log' = l1 ++ NAccepted x (CWorld (WExecute actions desc others)) i m :: l2 /\
    Exists (fun a => match a with GaStaking c => sets_staking c = true | _ => False end) actions /\
    passed Y n0 (log ++ l1) (nx_time x) (ge_id (net_gov Y) actions desc).
Proof.
  intros H H' Ho. destruct (C88_staking_proof _ _ _ _ _ _ _ _ _ H H') as [C|C]; [now left|right].
  rewrite Ho in C. apply Exists_split in C as (l1 & e & l2 & -> & He). rewrite app_assoc in H'.
  destruct e as [x c i m|]; [|contradiction].
  destruct (net_prefix _ _ _ _ _ _ H' _ _ _ _ _ _ eq_refl) as (n1 & _ & [Hacts _] & _).
  assert (Hne : nx_sender x <> ne_governor Y) by (unfold net_acts in Hacts; tauto).
  destruct c as [|[]]; cbn in He; try contradiction; destruct He as [He1 He]; [contradiction|].
  do 8 eexists. split; [reflexivity|]. split; [exact He|]. eapply C89_passed_proof; [exact H'|reflexivity].
Qed.

(** ** A proposal that has passed can be executed *)

Lemma same_place {A} (P : A -> bool) l1 a l2 k1 b k2 : l1 ++ a :: l2 = k1 ++ b :: k2 -> P a = true -> P b = true ->
  Forall (fun e => P e = false) l1 -> Forall (fun e => P e = false) l2 -> k1 = l1 /\ b = a.
Proof.
  intros H Ha Hb H1 H2. apply app_eq_inv in H as [(k & -> & H)|(k & -> & H)].
  - destruct k as [|e k]; [injection H as -> ->; now rewrite app_nil_r|]. injection H as -> ->.
    apply Forall_app in H1 as [_ H1]. apply Forall_cons in H1 as [H1 _]. congruence.
  - destruct k as [|e k]; [injection H as -> ->; now rewrite app_nil_r|]. injection H as -> ->.
    apply Forall_app in H2 as [_ H2]. apply Forall_cons in H2 as [H2 _]. congruence.
Qed.

Lemma only_settlement G x others l w w' : kx_vapp_accepts x = true ->
  Forall (fun a => match a with GaVApp _ => True | _ => False end) l ->
  actions_done G x others l w w' <-> w' = w.
Proof.
  intros Hx Hl. revert w. induction Hl as [|a l Ha Hl IH]; intros w.
  - split; [now inversion 1|intros ->; constructor].
  - destruct a as [| | | | | |c|]; try contradiction. split.
    + inversion 1 as [|? ? ? w1 ? Hone Hrest]; subst. inversion Hone; subst. now apply IH.
    + intros ->. econstructor; [constructor; exact Hx|now apply IH].
Qed.

Lemma C89_executable_proof Y t0 n0 log n now x actions desc others v :
  let id := ge_id (net_gov Y) actions desc in
  forall (Hrun : net_run Y t0 n0 log n now) (Htime : nx_time x = now) (Hacts : net_acts Y n (nx_sender x))
    (Hpassed : passed Y n0 log now id)
    (Hopen : Forall (fun e => ends Y id e = false) log)
    (Hactions : Forall (fun a => match a with GaVApp _ => True | _ => False end) actions)
    (Hsettles : proposal_settles Y x actions (settlement_now n) v),
  exists n', net_run_call Y x (CWorld (WExecute actions desc others)) n = Ok n' /\ settlement_now n' = v.
Proof.
  intros id H Ht Hacts Hp Ho Hall Hset.
  pose proof (net_addresses _ _ _ _ _ _ H) as Ha.
  destruct (net_gov_same _ _ _ _ _ _ H) as (g & Hg & [S1 S2] & Hbal & _ & Hsp & Hal).
  assert (Hby : net_by_anyone Y n x (CWorld (WExecute actions desc others))).
  { split; [exact Hacts|]. cbn. eapply Forall_impl; [exact Hall|]. intros [c| | | | | | |]; try contradiction; auto. }
  pose proof (by_anyone_world Y n x true _ Hby) as Hb'.
  destruct Hp as (l0 & x0 & via & ac & de & i & m & l01 & El & Hid & _ & R). cbv zeta in R. destruct R as (_ & Hend & _ & Hmaj & Hq).
  destruct (Hsp _ _ _ _ _ _ _ _ El) as (g0 & y & w1 & g1 & Eg & Ety & [T1 T2]).
  pose proof (C80_record_proof _ _ _ _ _ _ id Hg) as Hrec.
  assert (Hprop : proposes (net_gov Y) id (WAccepted y (WPropose via ac de) w1) = true) by (cbn; now apply N.eqb_eq).
  destruct (gv_proposals (w_governor (nw_world n)) !! id) as [p|] eqn:Ep.
  2:{ rewrite Eg in Hrec. apply Forall_app in Hrec as [_ Hrec]. apply Forall_cons in Hrec as [Hrec _].
      unfold concerns in Hrec. rewrite Hprop in Hrec. discriminate. }
  assert (Hno : Forall (fun e => executes (net_gov Y) id e = false /\ cancels (net_gov Y) id e = false) g).
  { eapply Forall_impl; [exact Hal|]. intros e [He|He].
    - unfold world_log in He. apply elem_of_list_In, in_flat_map in He as (e0 & Hin & He).
      rewrite Forall_forall in Ho. apply elem_of_list_In in Hin. apply Ho in Hin.
      destruct e0 as [z [c|c] j m0|]; try contradiction. destruct He as [<-|[]]. destruct c; auto.
    - destruct e as [z c w|]; [|contradiction]. destruct c; try contradiction; auto. }
  assert (Hocc : forall f, Forall (fun e => f e = false) g -> occurs f g = 0%nat).
  { intros f Hf. unfold occurs. clear -Hf. induction Hf as [|e l He _ IH]; [reflexivity|]. cbn. now rewrite He. }
  apply Forall_and in Hno as [Hno1 Hno2].
  pose proof (ds_executed _ _ _ _ _ Hrec) as D1. rewrite (Hocc _ Hno1) in D1.
  pose proof (ds_canceled _ _ _ _ _ Hrec) as D2. rewrite (Hocc _ Hno2) in D2.
  destruct (ds_proposed _ _ _ _ _ Hrec) as (k1 & z & via' & ac' & de' & w' & k2 & Ek & Hid' & F1 & F2 & _ & Ps & Pd).
  rewrite Eg in Ek. symmetry in Ek.
  apply (same_place (proposes (net_gov Y) id)) in Ek as [-> Ek]; [|cbn; now apply N.eqb_eq|exact Hprop| |exact F2].
  2:{ eapply Forall_impl; [exact F1|]. intros e He. unfold concerns in He. apply orb_false_iff in He as [He _].
      apply orb_false_iff in He as [He _]. now apply orb_false_iff in He as [He _]. }
  injection Ek as <- <- <- <-. rewrite T2, Ety in Ps. rewrite T2 in Pd.
  pose proof (ds_against _ _ _ _ _ Hrec) as V0. pose proof (ds_for _ _ _ _ _ Hrec) as V1. pose proof (ds_abstain _ _ _ _ _ Hrec) as V2.
  rewrite S1, Hbal, Ps in V0, V1, V2. unfold votes_for in Hmaj, Hq. rewrite <- V0, <- V1 in Hmaj. rewrite <- V1, <- V2 in Hq.
  pose proof (C80_execute_proof _ _ _ _ _ _ (world_ctx (nx_sender x) x true) actions desc others Hg Ht Hb') as Hx. cbv zeta in Hx.
  fold id in Hx.
  assert (Hmay : pr_executed p = false /\ pr_canceled p = false /\ pr_start p + pr_duration p < now /\ pr_against p < pr_for p /\
    iprove_supply (world_at (nw_world n0) g (pr_start p)) * quorum_percent (world_at (nw_world n0) g (pr_start p)) / 100
      <= pr_for p + pr_abstain p).
  { rewrite S1, Ps, Pd. split; [destruct (pr_executed p); [discriminate|reflexivity]|].
    split; [destruct (pr_canceled p); [discriminate|reflexivity]|]. auto. }
  assert (Hdone : forall w', actions_done (net_gov Y) (world_ctx (nx_sender x) x true) others actions
      (marked_executed id p (nw_world n)) w' <-> w' = marked_executed id p (nw_world n))
    by (intros w''; apply only_settlement; [reflexivity|exact Hall]).
  destruct (world_run _ _ _ _) as [w''|e] eqn:Ew in Hx.
  2:{ exfalso. apply Hx. exists p. eexists. split; [split; [exact Ep|exact Hmay]|]. now apply Hdone. }
  destruct Hx as (p' & [Ep' _] & Hd). assert (p' = p) as -> by congruence. apply Hdone in Hd.
  destruct (proj2 (C82_accepts_proof Y x (CWorld (WExecute actions desc others)) n)) as [n' Hn'].
  { split; [eapply Forall_impl; [exact Hall|]; intros [c| | | | | | |]; try contradiction; auto|]. eauto. }
  exists n'. split; [exact Hn'|]. cbn [net_run_call] in Hn'. apply executed in Hn' as (_ & Hv & Hw).
  rewrite Ew in Hw. injection Hw as Hw. apply actions_settle in Hset.
  apply (actions_token Y x actions (prove_of (nw_world n))) in Hv.
  assert (E : va_set_prove (prove_of (nw_world n)) (nw_vapp n) = settlement_now n) by reflexivity.
  rewrite E, Hset in Hv. injection Hv as ->. unfold settlement_now, net_prove. rewrite <- Hw, Hd. reflexivity.
Qed.
