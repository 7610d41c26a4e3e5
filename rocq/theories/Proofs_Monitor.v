(** The proofs of the theorems and examples of [Props_Monitor.v]. *)
From Coq Require Import QArith Qabs Lqa.
From Coq Require Import ZifyBool ZifyN ZifyNat.
From Verif Require Export MonitorSpec Proofs_Calibrator Proofs_NodeSystem ToyNodeSystem.
Open Scope N_scope.

(** ** Programs that obey an automaton *)

Fixpoint obeys {Q Ev X} (delta : Q -> Ev -> option Q) (p : flow Ev X) (q : Q) (post : Q -> X -> Prop) : Prop :=
  match p with
  | Ret x => post q x
  | Do A mk k => forall a, exists q', delta q (mk a) = Some q' /\ obeys delta (k a) q' post
  end.

Lemma obeys_bind {Q Ev X Y} (delta : Q -> Ev -> option Q) (p : flow Ev X) (f : X -> flow Ev Y) post : forall q,
  obeys delta p q (fun q' x => obeys delta (f x) q' post) -> obeys delta (flow_bind p f) q post.
Proof.
  induction p as [x|A mk k IH]; intros q H; cbn [flow_bind obeys] in *; [exact H|].
  intros a. destruct (H a) as (q' & E & H'). exists q'. split; [exact E|]. now apply IH.
Qed.
Lemma obeys_weaken {Q Ev X} (delta : Q -> Ev -> option Q) (p : flow Ev X) (post post' : Q -> X -> Prop) : forall q,
  (forall q x, post q x -> post' q x) -> obeys delta p q post -> obeys delta p q post'.
Proof.
  induction p as [x|A mk k IH]; intros q Hw H; cbn [obeys] in *; [now apply Hw|].
  intros a. destruct (H a) as (q' & E & H'). exists q'. split; [exact E|]. now apply IH.
Qed.
Lemma obeys_map {Q Ev Ev' X} (g : Ev -> Ev') (delta : Q -> Ev' -> option Q) (p : flow Ev X) post : forall q,
  obeys (fun q e => delta q (g e)) p q post -> obeys delta (flow_map g p) q post.
Proof.
  induction p as [x|A mk k IH]; intros q H; cbn [flow_map obeys] in *; [exact H|].
  intros a. destruct (H a) as (q' & E & H'). exists q'. split; [exact E|]. now apply IH.
Qed.
Lemma obeys_retry {Q Ev T} (delta : Q -> timed Ev -> option Q) (op : flow Ev (result T rpc_error)) (R : Q -> Prop) q :
  (forall t, delta q (Clock t) = Some q) -> (forall r, delta q (Random r) = Some q) ->
  (forall d u, delta q (Slept d u) = Some q) -> R q ->
  obeys (fun q e => delta q (Op e)) op q (fun q' r => match r with Ok _ => R q' | Err _ => q' = q end) ->
  forall fuel, obeys delta (with_retry fuel op) q (fun q' _ => R q').
Proof.
  intros H1 H2 H3 HR Hop fuel. unfold with_retry, retry_operation, ask. cbn [flow_bind obeys]. intros start.
  exists q. split; [apply H1|].
  generalize initial_interval. induction fuel as [|fuel IH]; intros interval; cbn [retry obeys]; [exact HR|].
  apply obeys_bind. apply obeys_map. eapply obeys_weaken; [|exact Hop]. intros q' [x|e]; cbn [obeys]; [auto|intros ->].
  destruct (transient e); [|exact HR]. apply obeys_bind. unfold next_pause, ask. cbn [flow_bind obeys]. intros t.
  exists q. split; [apply H1|]. destruct (_ <? _); [exact HR|]. cbn [flow_bind obeys]. intros r.
  exists q. split; [apply H2|]. destruct (_ <=? _); [|exact HR]. cbn [flow_bind obeys]. intros u.
  exists q. split; [apply H3|]. apply IH.
Qed.
Lemma obeys_reaches {Q Ev X} (delta : Q -> Ev -> option Q) post : forall tr (p rest : flow Ev X) q,
  obeys delta p q post -> reaches p tr rest ->
  exists q', fold_left (fun o e => match o with Some q => delta q e | None => None end) tr (Some q) = Some q' /\
    obeys delta rest q' post.
Proof.
  induction tr as [|e tr IH]; intros p rest q Hp Hr; cbn [reaches fold_left] in *; [subst; eauto|].
  destruct p as [x|A mk k]; [easy|]. destruct Hr as (a & -> & Hr). destruct (Hp a) as (q' & -> & Hk). eauto.
Qed.

(** ** Proofs, updates and fulfilments *)

Inductive stage : Type := SIdle | SExecuted (cycles : N) | SProved (cycles time : N) | SCounted.
Definition stage_step (q : stage) (e : timed node_event) : option stage :=
  match q, e with
  | SProved c t, Op (EMetrics c' t' _) => if (c =? c') && (t =? t') then Some SCounted else None
  | SProved _ _, _ => None
  | _, Op (EMetrics _ _ _) => None
  | SCounted, Op (EFulfill _ (Ok _)) => Some SIdle
  | _, Op (EFulfill _ (Ok _)) => None
  | SCounted, Op (EExecute _ _ (TOk _)) => None
  | _, Op (EExecute _ _ (TOk c)) => Some (SExecuted c)
  | SExecuted c, Op (EProve _ _ _ (TOk (_, t))) => Some (SProved c t)
  | SCounted, Op (EUnexecutable _ _) | SCounted, Op (EOwner _ _) => Some SIdle
  | SCounted, _ => Some SCounted
  | _, _ => Some SIdle
  end.
Definition stages (tr : list (timed node_event)) (q : stage) : option stage :=
  fold_left (fun o e => match o with Some q => stage_step q e | None => None end) tr (Some q).

Lemma stages_cons e tr q : stages (e :: tr) q = match stage_step q e with Some q' => stages tr q' | None => None end.
Proof.
  unfold stages. cbn [fold_left]. destruct (stage_step q e); [reflexivity|].
  induction tr as [|x tr IH]; [reflexivity|exact IH].
Qed.

Definition before (q : stage) : list (timed node_event) :=
  match q with SExecuted c => [Op (EExecute [] [] (TOk c))] | _ => [] end.
Definition pending (q : stage) : list (N * N) := match q with SProved c t => [(c, t)] | _ => [] end.
Definition credit (q : stage) : nat := match q with SCounted => 1 | _ => 0 end.

Lemma stages_account : forall tr q q', stages tr q = Some q' ->
  pending q ++ proofs_made (before q ++ tr) = proofs_counted tr ++ pending q' /\
  (fulfilments_accepted tr + credit q' <= length (proofs_counted tr) + credit q)%nat.
Proof.
  induction tr as [|e tr IH]; intros q q' H.
  - injection H as <-. destruct q; cbn; auto.
  - rewrite stages_cons in H. destruct (stage_step q e) as [q1|] eqn:E; [|discriminate].
    specialize (IH _ _ H). destruct IH as [I1 I2].
    destruct e as [t|r|d u|x].
    4: destruct x as [| | | | | |m [r|r]| | | | | |k s [c|?| |]|k s md [[pf t]|?| |]|c t []].
    all: destruct q as [|c0|c0 t0|]; cbn [stage_step] in E; try discriminate E;
      try (injection E as <-);
      unfold proofs_counted, fulfilments_accepted in *; cbn [flat_map app before pending proofs_made length credit] in *;
      try (split; [exact I1|lia]); try (split; [exact I1|]; rewrite ?app_length in *; cbn in *; lia).
    destruct ((c0 =? c) && (t0 =? t)) eqn:E0; [|discriminate]. apply andb_true_iff in E0. destruct E0 as [Ec Et].
    apply N.eqb_eq in Ec, Et. subst c0 t0. injection E as <-. cbn [before pending credit app] in *.
    split; [now rewrite I1|lia].
Qed.

Definition settled (q : stage) : Prop := q = SIdle \/ q = SCounted.

Lemma stage_submit fuel op q : settled q ->
  obeys (fun q e => stage_step q (Op e)) op q (fun q' r => match r with Ok _ => settled q' | Err _ => q' = q end) ->
  obeys stage_step (submit fuel op) q (fun q' _ => settled q').
Proof.
  intros Hq Hop. unfold submit. apply obeys_bind. eapply obeys_weaken; [|apply (obeys_retry _ op settled q); try exact Hop; try exact Hq].
  - intros q' x H. exact H.
  - intros t. destruct Hq; subst q; reflexivity.
  - intros t. destruct Hq; subst q; reflexivity.
  - intros t u. destruct Hq; subst q; reflexivity.
Qed.
Lemma stage_fail fuel n id q : settled q -> obeys stage_step (submit fuel (fail_operation n id)) q (fun q' _ => settled q').
Proof.
  intros Hq. apply stage_submit; [exact Hq|]. unfold fail_operation, ask. cbn [flow_bind obeys]. intros a.
  exists q. split; [destruct Hq; subst q; reflexivity|]. destruct a as [nonce|e]; cbn [flow_bind obeys]; [|reflexivity].
  intros r. exists q. split; [destruct Hq; subst q; reflexivity|]. destruct r; [exact Hq|reflexivity].
Qed.
Lemma stage_fulfil fuel n id proof : obeys stage_step (submit fuel (fulfill_operation n id proof)) SCounted (fun q' _ => settled q').
Proof.
  apply stage_submit; [now right|]. unfold fulfill_operation, ask. cbn [flow_bind obeys]. intros a.
  exists SCounted. split; [reflexivity|]. destruct a as [nonce|e]; cbn [flow_bind obeys]; [|reflexivity].
  intros [r|e]; [exists SIdle|exists SCounted]; (split; [reflexivity|]); [now left|reflexivity].
Qed.

Lemma stage_request fuel n q next s : settled s ->
  (forall s', settled s' -> obeys stage_step next s' (fun q' _ => settled q')) ->
  obeys stage_step (prove_request fuel n q next) s (fun q' _ => settled q').
Proof.
  intros Hs Hnext. unfold prove_request, ask. cbv zeta. cbn [flow_map flow_bind obeys]. intros known.
  exists SIdle. split; [destruct Hs; subst s; reflexivity|].
  assert (Hgo : forall s' (d : bool), settled s' ->
    obeys stage_step (if d then next else Ret RUnfinished) s' (fun q' _ => settled q')).
  { intros s' [] Hs'; [now apply Hnext|exact Hs']. }
  assert (H0 : settled SIdle) by now left.
  destruct known.
  { apply obeys_bind. eapply obeys_weaken; [|apply stage_fail; exact H0]. intros s' d Hs'. now apply Hgo. }
  destruct (extract_artifact_name (pr_program_uri q)); [|exact H0]. cbn [flow_map flow_bind obeys].
  intros pr. exists SIdle. split; [reflexivity|]. destruct pr as [program|e]; [|exact H0].
  destruct (extract_artifact_name (pr_stdin_uri q)); [|exact H0]. cbn [flow_map flow_bind obeys].
  intros st. exists SIdle. split; [reflexivity|]. destruct st as [stdin|e]; [|exact H0].
  destruct (proving_mode (pr_mode q)) as [mode|]; [|exact H0].
  assert (Hfail : obeys stage_step (ask! done := submit fuel (fail_operation n (pr_id q)) in
            (if done then next else Ret RUnfinished)) SIdle (fun q' _ => settled q')).
  { apply obeys_bind. eapply obeys_weaken; [|apply stage_fail; exact H0]. intros s' d Hs'. now apply Hgo. }
  unfold proving_task, ask. cbn [flow_map flow_bind obeys]. intros a. exists SIdle. split; [reflexivity|].
  destruct a as [pk|e| |]; cbn [flow_map flow_bind]; try exact Hfail. cbn [obeys].
  intros a. destruct a as [cycles|e| |].
  2-4: exists SIdle; split; [reflexivity|exact Hfail].
  exists (SExecuted cycles). split; [reflexivity|]. cbn [flow_map flow_bind obeys]. intros a. destruct a as [[serialized time]|e| |].
  2-4: exists SIdle; split; [reflexivity|exact Hfail].
  exists (SProved cycles time). split; [reflexivity|]. cbn [flow_map flow_bind obeys]. intros a. exists SCounted.
  split; [cbn [stage_step]; now rewrite !N.eqb_refl|]. destruct serialized as [proof|]; [|now right].
  apply obeys_bind. eapply obeys_weaken; [|apply stage_fulfil]. intros s' d Hs'. now apply Hgo.
Qed.

Lemma stage_prove fuel n s : settled s -> obeys stage_step (prove fuel n) s (fun q' _ => settled q').
Proof.
  intros Hs. unfold prove, ask. cbn [flow_map flow_bind obeys]. intros o. exists SIdle. split; [destruct Hs; subst s; reflexivity|].
  assert (H0 : settled SIdle) by now left. destruct o as [owner|e]; [|exact H0]. cbn [flow_map flow_bind obeys].
  intros t. exists SIdle. split; [reflexivity|]. cbn [flow_map flow_bind obeys].
  intros r. exists SIdle. split; [reflexivity|]. destruct r as [qs|e]; [|exact H0]. clear Hs. generalize dependent SIdle.
  induction qs as [|q qs IH]; intros s0 H0; cbn [prove_all]; [exact H0|]. apply stage_request; [exact H0|exact IH].
Qed.

Lemma runs_reaches {Ev X} : forall tr (p : flow Ev X) x, runs p tr x -> reaches p tr (Ret x).
Proof.
  induction tr as [|e tr IH]; intros p x H; destruct p as [y|A mk k]; cbn [runs reaches] in *.
  - now destruct H as [_ ->].
  - now destruct H as (a & t & ? & _).
  - now destruct H as [? _].
  - destruct H as (a & t & [= -> ->] & H). eauto.
Qed.
Lemma stages_app tr1 tr2 q q1 : stages tr1 q = Some q1 -> stages (tr1 ++ tr2) q = stages tr2 q1.
Proof. unfold stages. intros H. rewrite fold_left_app. now rewrite H. Qed.

Lemma C78_counted_proof fuel n ls s :
  forall (Hrun : sys_run fuel n ls s),
  (fulfilments_accepted (prove_events ls) <= length (proofs_counted (prove_events ls)))%nat /\
  (proofs_made (prove_events ls) = proofs_counted (prove_events ls) \/
   exists p, proofs_made (prove_events ls) = proofs_counted (prove_events ls) ++ [p]).
Proof.
  intros Hrun. destruct (C73_rounds_proof fuel n ls s Hrun) as (done & b & p & _ & E & _ & Hdone & _ & Hp). rewrite E.
  assert (Hd : forall q, settled q -> exists q', stages (concat (map snd done)) q = Some q' /\ settled q').
  { clear E. induction done as [|x done IH]; intros q Hq; cbn [map concat]; [exists q; auto|].
    inversion Hdone as [|? ? Hx Hrest]; subst. destruct Hx as (rb & rp & _ & Hx & _).
    destruct (obeys_reaches stage_step _ _ _ _ q (stage_prove fuel n q Hq) (runs_reaches _ _ _ Hx)) as (q1 & E1 & H1).
    rewrite (stages_app _ _ _ _ E1). now apply IH. }
  destruct (Hd SIdle) as (q1 & E1 & H1); [now left|].
  destruct (obeys_reaches stage_step _ _ _ _ q1 (stage_prove fuel n q1 H1) Hp) as (q2 & E2 & _).
  assert (E3 : stages (concat (map snd done) ++ p) SIdle = Some q2) by (rewrite (stages_app _ _ _ _ E1); exact E2).
  apply stages_account in E3. cbn [pending before credit app] in E3. destruct E3 as [A B]. split; [lia|].
  rewrite A. destruct q2; cbn [pending]; rewrite ?app_nil_r; eauto.
Qed.

(** ** The counters *)

Definition run_counters (c : counters) (h : list counter_event) : option counters :=
  fold_left (fun o e => match o with Some c => counter_step c e | None => None end) h (Some c).

Lemma run_none h : fold_left (fun o e => match o with Some c => counter_step c e | None => None end) h None = None.
Proof. induction h as [|e h IH]; [reflexivity|exact IH]. Qed.
Lemma run_counters_cons c e h : run_counters c (e :: h) =
  match counter_step c e with Some c' => run_counters c' h | None => None end.
Proof. unfold run_counters. cbn [fold_left]. destruct (counter_step c e); [reflexivity|apply run_none]. Qed.
Lemma run_counters_app c h1 h2 : run_counters c (h1 ++ h2) =
  match run_counters c h1 with Some c' => run_counters c' h2 | None => None end.
Proof.
  unfold run_counters. rewrite fold_left_app. destruct (fold_left _ h1 _); [reflexivity|apply run_none].
Qed.
Lemma history_run : forall h c, counter_history c h <-> exists c', run_counters c h = Some c'.
Proof.
  induction h as [|e h IH]; intros c; cbn [counter_history].
  - split; [intros _; exists c; reflexivity|easy].
  - rewrite run_counters_cons. split.
    + intros (c' & -> & H). now apply IH.
    + intros (c' & H). destruct (counter_step c e) as [c1|]; [|discriminate]. exists c1. split; [reflexivity|]. apply IH. eauto.
Qed.

Definition triple (p : N * N) : list counter_event := [MAddCycles (fst p); MAddTime (snd p); MAddFulfilled].
Lemma updates_counted tr : flat_map counter_updates tr = flat_map triple (proofs_counted tr).
Proof.
  induction tr as [|e tr IH]; [reflexivity|]. unfold proofs_counted in *. cbn [flat_map]. rewrite flat_map_app, IH. f_equal.
  destruct e as [| | |x]; try reflexivity. now destruct x.
Qed.
Lemma triples_length l : length (flat_map triple l) = (3 * length l)%nat.
Proof. induction l as [|p l IH]; [reflexivity|]. cbn [flat_map]. rewrite app_length, IH. cbn. lia. Qed.

Lemma cycles_of_cons k p l : cycles_of (S k) (p :: l) = fst p + cycles_of k l.
Proof. reflexivity. Qed.
Lemma time_of_cons k p l : time_of (S k) (p :: l) = snd p + time_of k l.
Proof. reflexivity. Qed.
Lemma cycles_of_le k l : cycles_of k l <= cycles_of (length l) l.
Proof.
  revert k. induction l as [|p l IH]; intros [|k]; [reflexivity|reflexivity|apply N.le_0_l|].
  cbn [length]. rewrite !cycles_of_cons. specialize (IH k). lia.
Qed.
Lemma time_of_le k l : time_of k l <= time_of (length l) l.
Proof.
  revert k. induction l as [|p l IH]; intros [|k]; [reflexivity|reflexivity|apply N.le_0_l|].
  cbn [length]. rewrite !time_of_cons. specialize (IH k). lia.
Qed.

Lemma div3 j : ((3 + j) / 3 = S (j / 3))%nat.
Proof. replace (3 + j)%nat with (j + 1 * 3)%nat by lia. rewrite Nat.div_add by lia. lia. Qed.

Lemma cycles_of_0 l : cycles_of 0 l = 0.
Proof. reflexivity. Qed.
Lemma time_of_0 l : time_of 0 l = 0.
Proof. reflexivity. Qed.
Ltac small_case :=
  change (1 / 3)%nat with 0%nat; change (2 / 3)%nat with 0%nat; change (0 / 3)%nat with 0%nat;
  change ((0 + 2) / 3)%nat with 0%nat; change ((0 + 1) / 3)%nat with 0%nat; change ((1 + 1) / 3)%nat with 0%nat;
  rewrite ?cycles_of_cons, ?time_of_cons, ?cycles_of_0, ?time_of_0; cbn [fst snd]; do 2 f_equal; lia.

Lemma updates_prefix : forall l j f y z, (j <= 3 * length l)%nat ->
  f + N.of_nat (length l) < 2 ^ 64 -> y + cycles_of (length l) l < 2 ^ 64 ->
  run_counters (Counters f y z) (take j (flat_map triple l)) =
  Some (Counters (f + N.of_nat (j / 3)) (y + cycles_of ((j + 2) / 3) l) (z + time_of ((j + 1) / 3) l)).
Proof.
  induction l as [|[c t] l IH]; intros j f y z Hj Hf Hy.
  - assert (j = 0)%nat as -> by (cbn in Hj; lia). cbn. unfold run_counters, cycles_of, time_of. cbn. f_equal. f_equal; lia.
  - cbn [length] in *. change (cycles_of (S (length l)) ((c, t) :: l)) with (c + cycles_of (length l) l) in Hy.
    assert (Hc : forall a, a + c < 2 ^ 64 -> (a + c) mod 2 ^ 64 = a + c) by (intros a Ha; now apply N.mod_small).
    destruct j as [|[|[|j]]].
    + rewrite firstn_O. unfold run_counters. cbn [fold_left]. small_case.
    + cbn [flat_map triple app]. rewrite ?firstn_cons, ?firstn_O. rewrite run_counters_cons. cbn [counter_step fst ct_cycles ct_fulfilled ct_time].
      unfold run_counters. cbn [fold_left]. change (3 / 3)%nat with 1%nat. change ((1 + 2) / 3)%nat with 1%nat.
      rewrite Hc by lia. small_case.
    + cbn [flat_map triple app]. rewrite ?firstn_cons, ?firstn_O. rewrite !run_counters_cons. cbn [counter_step fst snd ct_cycles ct_fulfilled ct_time].
      rewrite run_counters_cons. cbn [counter_step fst snd ct_cycles ct_fulfilled ct_time].
      unfold run_counters. cbn [fold_left]. change ((2 + 1) / 3)%nat with 1%nat. change ((2 + 2) / 3)%nat with 1%nat.
      rewrite Hc by lia. small_case.
    + cbn [flat_map triple app]. rewrite ?firstn_cons, ?firstn_O. do 3 (rewrite run_counters_cons; cbn [counter_step fst snd ct_cycles ct_fulfilled ct_time]).
      rewrite Hc by lia. rewrite (N.mod_small (f + 1)) by lia.
      rewrite IH by lia.
      change (S (S (S j)) + 2)%nat with (3 + (j + 2))%nat. change (S (S (S j)) + 1)%nat with (3 + (j + 1))%nat.
      change (S (S (S j)))%nat with (3 + j)%nat. rewrite !div3.
      change (cycles_of (S ((j + 2) / 3)) ((c, t) :: l)) with (c + cycles_of ((j + 2) / 3) l).
      change (time_of (S ((j + 1) / 3)) ((c, t) :: l)) with (t + time_of ((j + 1) / 3) l).
      do 2 f_equal; lia.
Qed.

(** ** Where the readings come *)

Lemma interleaving_first {X} : forall (h l1 l2 : list X) x, interleaving [l1; x :: l2] h ->
  exists a b h', h = a ++ x :: h' /\ l1 = a ++ b /\ interleaving [b; l2] h'.
Proof.
  induction h as [|e h IH]; intros l1 l2 x H; inversion H as [ls Hnil|bf y l af rest Hr Eb]; subst.
  - rewrite !Forall_cons in Hnil. destruct Hnil as (_ & Hx & _). discriminate Hx.
  - destruct bf as [|u [|v bf]]; cbn in Eb.
    + injection Eb as E1 E2; subst. cbn in Hr. destruct (IH _ _ _ Hr) as (a & b & h' & -> & -> & Hi).
      exists (e :: a), b, h'. auto.
    + injection Eb as E1 E2 E3 E4; subst. exists [], l1, h. auto.
    + injection Eb as _ _ Eb. now destruct bf.
Qed.
Lemma interleaving_none {X} : forall (h l1 : list X), interleaving [l1; []] h -> h = l1.
Proof.
  induction h as [|e h IH]; intros l1 H; inversion H as [ls Hnil|bf y l af rest Hr Eb]; subst.
  - rewrite Forall_cons in Hnil. now destruct Hnil as [-> _].
  - destruct bf as [|u [|v bf]]; cbn in Eb.
    + injection Eb as E1 E2; subst. f_equal. now apply IH.
    + discriminate Eb.
    + injection Eb as _ _ Eb. now destruct bf.
Qed.

Definition written (fulfilled cycles time : N) : metrics_line :=
  MetricsLine (decimal_text fulfilled) (cycles_text cycles) (format_duration time) (throughput_text cycles time).
Lemma record_runs tr line : runs record_metrics tr line ->
  exists f c t, tr = [MReadFulfilled f; MReadCycles c; MReadTime t] /\ line = written f c t.
Proof.
  unfold record_metrics, ask. cbn [flow_bind runs]. intros (f & r1 & -> & c & r2 & -> & t & r3 & -> & -> & ->).
  exists f, c, t. auto.
Qed.

Lemma take_prefix {X} (a b l : list X) : l = a ++ b -> a = take (length a) l.
Proof. intros ->. now rewrite take_app. Qed.

Lemma readings l tr line h :
  runs record_metrics tr line -> interleaving [flat_map triple l; tr] h -> counter_history counters_start h ->
  N.of_nat (length l) < 2 ^ 64 -> cycles_of (length l) l < 2 ^ 64 ->
  exists k1 k2 k3, (k1 <= k2)%nat /\ (k1 <= k3)%nat /\ (k2 <= k3 + 1)%nat /\ (k2 <= length l)%nat /\ (k3 <= length l)%nat /\
    line = written (N.of_nat k1) (cycles_of k2 l) (time_of k3 l).
Proof.
  intros Hrun Hi Hh Hl Hc. destruct (record_runs _ _ Hrun) as (f & c & t & -> & ->). clear Hrun.
  destruct (interleaving_first _ _ _ _ Hi) as (a & r & h1 & -> & E1 & Hi1).
  destruct (interleaving_first _ _ _ _ Hi1) as (b & r' & h2 & -> & -> & Hi2).
  destruct (interleaving_first _ _ _ _ Hi2) as (d & r'' & h3 & -> & -> & _). clear Hi Hi1 Hi2.
  assert (P1 : a = take (length a) (flat_map triple l)) by now apply (take_prefix a (b ++ d ++ r'')).
  assert (P2 : a ++ b = take (length (a ++ b)) (flat_map triple l)).
  { apply (take_prefix (a ++ b) (d ++ r'')). now rewrite <- app_assoc. }
  assert (P3 : a ++ b ++ d = take (length (a ++ b ++ d)) (flat_map triple l)).
  { apply (take_prefix (a ++ b ++ d) r''). now rewrite <- !app_assoc. }
  assert (Hlen : (length a + length b + length d <= 3 * length l)%nat).
  { rewrite <- triples_length, E1, !app_length. lia. }
  pose proof (updates_prefix l (length a) 0 0 0 ltac:(lia) ltac:(lia) ltac:(lia)) as R1. rewrite <- P1 in R1.
  pose proof (updates_prefix l (length (a ++ b)) 0 0 0 ltac:(rewrite app_length; lia) ltac:(lia) ltac:(lia)) as R2. rewrite <- P2 in R2.
  pose proof (updates_prefix l (length (a ++ b ++ d)) 0 0 0 ltac:(rewrite !app_length; lia) ltac:(lia) ltac:(lia)) as R3. rewrite <- P3 in R3.
  rewrite app_length in R2. rewrite app_length, (app_length b d) in R3. set (i := length a) in *. set (j := length b) in *. set (k := length d) in *. clearbody i j k.
  rewrite run_counters_app, R1 in R2. rewrite run_counters_app, R1, run_counters_app, R2 in R3.
  apply history_run in Hh. destruct Hh as (c' & Hh).
  change counters_start with (Counters 0 0 0) in Hh.
  rewrite run_counters_app, R1, run_counters_cons in Hh. cbn [counter_step ct_fulfilled] in Hh.
  destruct (N.eqb f _) eqn:Ef in Hh; [apply N.eqb_eq in Ef|discriminate Hh].
  rewrite run_counters_app, R2, run_counters_cons in Hh. cbn [counter_step ct_cycles] in Hh.
  destruct (N.eqb c _) eqn:Ec in Hh; [apply N.eqb_eq in Ec|discriminate Hh].
  rewrite run_counters_app, R3, run_counters_cons in Hh. cbn [counter_step ct_time] in Hh.
  destruct (N.eqb t _) eqn:Et in Hh; [apply N.eqb_eq in Et|discriminate Hh].
  exists (i / 3)%nat, ((i + j + 2) / 3)%nat, ((i + (j + k) + 1) / 3)%nat. subst f c t.
  rewrite !N.add_0_l.
  pose proof (Nat.div_mod i 3 ltac:(lia)). pose proof (Nat.mod_upper_bound i 3 ltac:(lia)).
  pose proof (Nat.div_mod (i + j + 2) 3 ltac:(lia)). pose proof (Nat.mod_upper_bound (i + j + 2) 3 ltac:(lia)).
  pose proof (Nat.div_mod (i + (j + k) + 1) 3 ltac:(lia)). pose proof (Nat.mod_upper_bound (i + (j + k) + 1) 3 ltac:(lia)).
  repeat match goal with |- _ /\ _ => split end; try lia. reflexivity.
Qed.

(** ** The texts *)

Definition item : Type := N * list N * N.
Definition item_text (x : item) : list N := decimal_text (fst (fst x)) ++ snd (fst x).
Definition item_ok (x : item) : Prop := fst (fst x) < 2 ^ 256 /\ time_unit (fst (fst x)) (snd (fst x)) (snd x).
Definition items_value (l : list item) : N := sum_all (map (fun x => fst (fst x) * snd x) l).

Lemma items_text : forall l, l <> [] -> Forall item_ok l -> duration_text (with_spaces (map item_text l)) (items_value l).
Proof.
  induction l as [|[[n name] size] l IH]; intros Hne Hok; [easy|]. apply Forall_cons in Hok. destruct Hok as [[Hn Hu] Hok].
  cbn [fst snd] in Hn, Hu. pose proof (decimal_text_spec n Hn) as Hd. destruct l as [|x l].
  - cbn [map with_spaces]. unfold item_text, items_value. cbn [map fst snd sum_all fold_right].
    rewrite N.add_0_r. now apply one_item.
  - assert (H := IH ltac:(easy) Hok). change (with_spaces (map item_text ((n, name, size) :: x :: l)))
      with ((decimal_text n ++ name) ++ [32] ++ with_spaces (map item_text (x :: l))).
    change (items_value ((n, name, size) :: x :: l)) with (n * size + items_value (x :: l)).
    rewrite <- app_assoc. now apply more_items.
Qed.

Definition only (n : N) (name : list N) (size : N) : list item := if n =? 0 then [] else [(n, name, size)].
Lemma only_item n name size : duration_item name n = map item_text (only n name size).
Proof. unfold duration_item, only. now destruct (n =? 0). Qed.
Lemma only_ok n name size : n < 2 ^ 256 -> time_unit n name size -> Forall item_ok (only n name size).
Proof. intros H1 H2. unfold only. destruct (n =? 0); [constructor|]. constructor; [now split|constructor]. Qed.
Lemma only_value n name size : items_value (only n name size) = n * size.
Proof. unfold only. destruct (N.eqb_spec n 0); [subst; reflexivity|]. unfold items_value. cbn [map sum_all fold_right fst snd]. apply N.add_0_r. Qed.
Lemma items_value_app a b : items_value (a ++ b) = items_value a + items_value b.
Proof.
  unfold items_value. induction a as [|x a IH]; [reflexivity|]. cbn [app map sum_all fold_right]. unfold sum_all in *. rewrite IH. lia.
Qed.

Lemma plural_ok n name size m : n < 2 ^ 256 -> In m [31557600; 2630016; 86400] ->
  (In (name, m) [([121; 101; 97; 114], 31557600); ([109; 111; 110; 116; 104], 2630016); ([100; 97; 121], 86400)]) ->
  size = m * 10 ^ 9 -> Forall item_ok (only n (name ++ (if 1 <? n then [115] else [])) size).
Proof.
  intros Hn Hm Hin ->. unfold only. destruct (N.eqb_spec n 0) as [E|E]; [constructor|]. constructor; [|constructor].
  split; [exact Hn|]. cbn [fst snd]. unfold time_unit. destruct (N.eqb_spec n 1) as [E1|E1].
  - subst n. change (1 <? 1) with false. cbn [app]. rewrite app_nil_r.
    cbn [In] in Hin. destruct Hin as [H|[H|[H|[]]]]; injection H as <- <-; cbn [In]; auto 10.
  - assert (Hlt : (1 <? n) = true) by (apply N.ltb_lt; lia). rewrite Hlt.
    cbn [In] in Hin. destruct Hin as [H|[H|[H|[]]]]; injection H as <- <-; cbn [In app]; auto 10.
Qed.

Lemma part_div a b c : a <= c -> a / b <= c.
Proof.
  intros H. apply N.le_trans with (2 := H). destruct (N.eq_dec b 0) as [->|Hb]; [now destruct a|].
  apply N.div_le_upper_bound; [exact Hb|]. nia.
Qed.
Lemma part_mod a b c : a <= c -> a mod b <= c.
Proof.
  intros H. apply N.le_trans with (2 := H). destruct (N.eq_dec b 0) as [->|Hb]; [now destruct a|]. now apply N.mod_le.
Qed.
Ltac small_part :=
  match goal with H : ?n < 2 ^ 256 |- _ < 2 ^ 256 => apply N.le_lt_trans with (2 := H) end;
  repeat (first [apply N.le_refl|apply part_div|apply part_mod]).

Lemma format_duration_text nanos : nanos < 2 ^ 64 * 10 ^ 9 -> duration_text (format_duration nanos) nanos.
Proof.
  intros Hn. unfold format_duration. destruct (N.eqb_spec nanos 0) as [->|H0]; cbv zeta.
  - apply (one_item 0 [48] [115] (10 ^ 9)).
    + split; [repeat constructor; lia|]. split; [discriminate|reflexivity].
    + unfold time_unit. cbn [In]. auto 10.
  - set (secs := nanos / 10 ^ 9). set (sb := nanos mod 10 ^ 9). set (yd := secs mod 31557600). set (md := yd mod 2630016).
    set (ds := md mod 86400).
    set (items := only (secs / 31557600) ([121; 101; 97; 114] ++ (if 1 <? secs / 31557600 then [115] else [])) (31557600 * 10 ^ 9) ++
      only (yd / 2630016) ([109; 111; 110; 116; 104] ++ (if 1 <? yd / 2630016 then [115] else [])) (2630016 * 10 ^ 9) ++
      only (md / 86400) ([100; 97; 121] ++ (if 1 <? md / 86400 then [115] else [])) (86400 * 10 ^ 9) ++
      only (ds / 3600) [104] (3600 * 10 ^ 9) ++ only (ds mod 3600 / 60) [109] (60 * 10 ^ 9) ++ only (ds mod 60) [115] (10 ^ 9) ++
      only (sb / 1000000) [109; 115] (10 ^ 6) ++ only (sb / 1000 mod 1000) [117; 115] (10 ^ 3) ++ only (sb mod 1000) [110; 115] 1).
    pose proof (N.div_mod nanos (10 ^ 9) ltac:(discriminate)) as D1. fold secs sb in D1.
    pose proof (N.div_mod secs 31557600 ltac:(discriminate)) as D2. fold yd in D2.
    pose proof (N.div_mod yd 2630016 ltac:(discriminate)) as D3. fold md in D3.
    pose proof (N.div_mod md 86400 ltac:(discriminate)) as D4. fold ds in D4.
    pose proof (N.div_mod ds 3600 ltac:(discriminate)) as D5.
    pose proof (N.div_mod (ds mod 3600) 60 ltac:(discriminate)) as D6.
    assert (D7 : ds mod 60 = ds mod 3600 mod 60).
    { change 3600 with (60 * 60). rewrite N.mod_mul_r by discriminate. rewrite N.mul_comm, N.mod_add by discriminate.
      now rewrite N.mod_mod by discriminate. }
    pose proof (N.div_mod sb 1000 ltac:(discriminate)) as D9.
    pose proof (N.div_mod (sb / 1000) 1000 ltac:(discriminate)) as D10.
    assert (D11 : sb / 1000000 = sb / 1000 / 1000).
    { change 1000000 with (1000 * 1000). now rewrite N.div_div by discriminate. }
    assert (Ev : items_value items = nanos).
    { unfold items. rewrite !items_value_app, !only_value. rewrite D7. rewrite D11 in *.
      change (10 ^ 9) with 1000000000 in *. change (10 ^ 6) with 1000000. change (10 ^ 3) with 1000.
      clear - D1 D2 D3 D4 D5 D6 D9 D10. clearbody secs sb yd md ds.
      repeat match goal with
        | H : context [?a / ?b] |- _ => let x := fresh "x" in set (x := a / b) in *; clearbody x
        | H : context [?a mod ?b] |- _ => let x := fresh "x" in set (x := a mod b) in *; clearbody x
      end.
      lia. }
    assert (Hbig : nanos < 2 ^ 256) by (apply N.lt_trans with (1 := Hn); reflexivity).
    clear D1 D2 D3 D4 D5 D6 D7 D9 D10 D11.
    assert (Hok : Forall item_ok items).
    { unfold items. rewrite !Forall_app.
      repeat match goal with |- _ /\ _ => split end.
      - apply plural_ok with 31557600; cbn [In]; auto 10; small_part.
      - apply plural_ok with 2630016; cbn [In]; auto 10; small_part.
      - apply plural_ok with 86400; cbn [In]; auto 10; small_part.
      - apply only_ok; [small_part|]. unfold time_unit. cbn [In]. auto 10.
      - apply only_ok; [small_part|]. unfold time_unit. cbn [In]. auto 10.
      - apply only_ok; [small_part|]. unfold time_unit. cbn [In]. auto 10.
      - apply only_ok; [small_part|]. unfold time_unit. cbn [In]. auto 10.
      - apply only_ok; [small_part|]. unfold time_unit. cbn [In]. auto 12.
      - apply only_ok; [small_part|]. unfold time_unit. cbn [In]. auto 12. }
    assert (Hne : items <> []). { intros E. rewrite E in Ev. cbn in Ev. lia. }
    pose proof (items_text items Hne Hok) as Ht. rewrite Ev in Ht. unfold items in Ht. rewrite !map_app in Ht.
    unfold duration_item_plural. rewrite <- !only_item in Ht. exact Ht.
Qed.

Import CalibratorFacts.
Open Scope N_scope.

Lemma shows_approx k x y p : (k <= 20)%nat -> approx k x y -> between p y -> (p <= 900)%N -> shows (two_decimals x) y.
Proof.
  intros Hk Ha Hb Hp. assert (Hb' : between 900 y) by now apply between_mono with p.
  destruct (approx_bound k x y 900 ltac:(lia) Ha Hb') as (n & d & -> & Hd & Hle).
  destruct (two_decimals_literal n d Hd) as (h & Hl & Hq).
  { apply N.le_trans with (1 := Hle). apply N.mul_le_mono_r. vm_compute. discriminate. }
  exists h, (frac n d). split; [exact Hl|]. split; [exact Hq|].
  destruct (close_value k _ _ Hk Ha) as (n' & d' & E & _ & Hc). injection E as <- <-. exact Hc.
Qed.
Lemma shows_zero y : (y == 0)%Q -> shows [48; 46; 48; 48] y.
Proof.
  intros Hy. exists 0%N, 0%Q. split; [|split].
  - destruct (two_decimals_literal 0 1) as (h & Hl & Hq); [lia|lia|]. cbn [two_decimals] in Hl.
    change (nearest_even (100 * 0) 1) with 0 in Hl. change ([] ++ digits_text (0 / 100) ++ _) with [48; 46; 48; 48] in Hl.
    assert (h = 0)%N as ->; [|exact Hl].
    destruct (N.eq_dec h 0) as [|Hh]; [assumption|]. exfalso.
    assert (H1 : (1 <= number h)%Q) by (apply (NQ_le 1); lia).
    rewrite !frac_eq in Hq. change (number 100) with 100%Q in Hq. change (number 0 / number 1)%Q with 0%Q in Hq.
    setoid_replace (number h / 100)%Q with ((1 # 100) * number h)%Q in Hq by (unfold Qdiv; apply Qmult_comm).
    apply Qabs_Qle_condition in Hq. lra.
  - vm_compute. discriminate.
  - unfold close. rewrite Hy. vm_compute. discriminate.
Qed.

Lemma million_between c : c <> 0 -> c < 2 ^ 64 -> between 84 (frac c (10 ^ 6)).
Proof.
  intros H0 Hc. rewrite frac_eq. apply (between_div 64 20).
  - apply between_N; lia.
  - apply between_N; vm_compute; discriminate.
Qed.
Lemma cycles_shown c : c < 2 ^ 64 -> exists value, cycles_text c = value ++ [77] /\ shows value (frac c (10 ^ 6)).
Proof.
  intros Hc. exists (two_decimals (f64_div (f64_of c) (f64_of 1000000))). split; [reflexivity|].
  destruct (N.eq_dec c 0) as [->|H0].
  - change (two_decimals (f64_div (f64_of 0) (f64_of 1000000))) with [48; 46; 48; 48]. apply shows_zero. apply frac_0.
  - pose proof (million_between c H0 Hc) as Hb. apply (shows_approx 3 _ _ 84); [lia| |exact Hb|lia].
    rewrite frac_eq in *. apply (approx_div 1 1); [lia|now apply between_mono with 84%N; [lia|]|reflexivity| |];
      apply approx_of; [|reflexivity]. apply N.lt_trans with (1 := Hc). reflexivity.
Qed.
Lemma throughput_shown c t : c < 2 ^ 64 -> t < 2 ^ 64 * 10 ^ 9 -> shows_throughput (throughput_text c t) c t.
Proof.
  intros Hc Ht. unfold throughput_text, shows_throughput. set (secs := t / 10 ^ 9).
  assert (Hs : secs < 2 ^ 64) by (apply N.div_lt_upper_bound; [discriminate|]; now rewrite N.mul_comm).
  clearbody secs. clear Ht t.
  assert (Hbig : 2 ^ 64 < 2 ^ 100) by reflexivity.
  destruct (N.eq_dec secs 0) as [->|Hs0]; [|destruct (N.eq_dec c 0) as [->|Hc0]].
  - destruct (N.eq_dec c 0) as [->|Hc0].
    + exists [48]. split; [reflexivity|]. repeat match goal with |- _ /\ _ => split end; intros; try reflexivity; lia.
    + exists [105; 110; 102]. split.
      * assert (Ha : approx 1 (f64_of c) (number c)) by (apply approx_of; lia).
        assert (Pc : (0 < number c)%Q) by (apply NQ_pos; lia).
        destruct (approx_nonzero 1 _ _ Pc Ha) as (n & d & -> & Hn & Hd).
        change (f64_of 0) with (FFin false 0 1). cbn [f64_div xorb]. rewrite N.eqb_refl.
        destruct (N.eqb_spec n 0); [lia|]. reflexivity.
      * repeat match goal with |- _ /\ _ => split end; intros; try reflexivity; lia.
  - exists [48; 46; 48; 48]. split.
    + assert (Ha : approx 1 (f64_of secs) (number secs)) by (apply approx_of; lia).
      assert (Pc : (0 < number secs)%Q) by (apply NQ_pos; lia).
      destruct (approx_nonzero 1 _ _ Pc Ha) as (n & d & -> & Hn & Hd).
      change (f64_of 0) with (FFin false 0 1). cbn [f64_div xorb]. destruct (N.eqb_spec n 0); [lia|].
      change (to_f64 false (0 * d) (1 * n)) with (FFin false 0 1). reflexivity.
    + split; [|split; intros; lia]. intros _. apply shows_zero. rewrite frac_0. reflexivity.
  - exists (two_decimals (f64_div (f64_div (f64_of c) (f64_of secs)) (f64_of 1000000))).
    assert (Bc : between 64 (number c)) by (apply between_N; lia).
    assert (Bs : between 64 (number secs)) by (apply between_N; lia).
    assert (B1 : between 128 (number c / number secs)) by now apply (between_div 64 64).
    assert (A1 : approx 3 (f64_div (f64_of c) (f64_of secs)) (number c / number secs)).
    { apply (approx_div 1 1); [lia|now apply between_mono with 128%N; [lia|]|apply NQ_pos; lia|apply approx_of; lia|apply approx_of; lia]. }
    split; [|split; [|split; intros; lia]].
    + destruct A1 as (n & d & -> & _). reflexivity.
    + intros _. rewrite frac_eq. apply (shows_approx 5 _ _ 148); [lia| | |lia].
      * apply (approx_div 3 1); [lia| |reflexivity|exact A1|apply approx_of; reflexivity].
        apply between_mono with 148%N; [lia|]. apply (between_div 128 20); [exact B1|]. apply between_N; vm_compute; discriminate.
      * apply (between_div 128 20); [exact B1|]. apply between_N; vm_compute; discriminate.
Qed.
Lemma written_shows f c t : f < 2 ^ 64 -> c < 2 ^ 64 -> t < 2 ^ 64 * 10 ^ 9 -> line_shows (written f c t) f c t.
Proof.
  intros Hf Hc Ht. unfold line_shows, written. cbn [ml_fulfilled ml_cycles ml_time ml_throughput].
  split; [apply decimal_text_spec; apply N.lt_trans with (1 := Hf); reflexivity|]. split; [now apply cycles_shown|].
  split; [now apply format_duration_text|now apply throughput_shown].
Qed.

(** ** The theorems *)

Lemma C78_line_proof ev tr line h :
  forall (Hrun : runs record_metrics tr line) (Hmix : interleaving [flat_map counter_updates ev; tr] h)
    (Hread : counter_history counters_start h) (Hfits : fit_64_bits (proofs_counted ev)),
  exists k1 k2 k3, (k1 <= k2)%nat /\ (k1 <= k3)%nat /\ (k2 <= k3 + 1)%nat /\
    (k2 <= length (proofs_counted ev))%nat /\ (k3 <= length (proofs_counted ev))%nat /\
    line_shows line (N.of_nat k1) (cycles_of k2 (proofs_counted ev)) (time_of k3 (proofs_counted ev)).
Proof.
  intros Hrun Hmix Hread (F1 & F2 & F3). rewrite updates_counted in Hmix.
  destruct (readings _ _ _ _ Hrun Hmix Hread F1 F2) as (k1 & k2 & k3 & H1 & H2 & H3 & H4 & H5 & ->).
  exists k1, k2, k3. repeat match goal with |- _ /\ _ => split end; try assumption.
  pose proof (cycles_of_le k2 (proofs_counted ev)). pose proof (time_of_le k3 (proofs_counted ev)).
  apply written_shows; lia.
Qed.

Lemma C78_quiet_proof earlier later tr line :
  forall (Hrun : runs record_metrics tr line)
    (Hread : counter_history counters_start (flat_map counter_updates earlier ++ tr ++ flat_map counter_updates later))
    (Hfits : fit_64_bits (proofs_counted earlier)),
  line_shows line (N.of_nat (length (proofs_counted earlier))) (sum_all (map fst (proofs_counted earlier)))
    (sum_all (map snd (proofs_counted earlier))).
Proof.
  intros Hrun Hread (F1 & F2 & F3). destruct (record_runs _ _ Hrun) as (f & c & t & -> & ->).
  rewrite updates_counted in Hread. set (l := proofs_counted earlier) in *. apply history_run in Hread. destruct Hread as (c' & Hh).
  pose proof (updates_prefix l (3 * length l) 0 0 0 ltac:(lia) ltac:(lia) ltac:(lia)) as R.
  rewrite <- triples_length in R at 1. rewrite firstn_all in R. rewrite run_counters_app in Hh.
  change counters_start with (Counters 0 0 0) in Hh. rewrite R in Hh.
  assert (J1 : (3 * length l / 3 = length l)%nat) by (rewrite Nat.mul_comm; now apply Nat.div_mul).
  assert (J2 : ((3 * length l + 2) / 3 = length l)%nat).
  { rewrite Nat.mul_comm, Nat.add_comm, Nat.div_add by lia. reflexivity. }
  assert (J3 : ((3 * length l + 1) / 3 = length l)%nat).
  { rewrite Nat.mul_comm, Nat.add_comm, Nat.div_add by lia. reflexivity. }
  rewrite J1, J2, J3, !N.add_0_l in Hh. cbn [app] in Hh.
  do 3 (rewrite run_counters_cons in Hh; cbn [counter_step ct_fulfilled ct_cycles ct_time] in Hh;
        match type of Hh with context [?a =? ?b] => destruct (a =? b) eqn:? in Hh; [|discriminate Hh] end;
        match goal with H : (_ =? _) = true |- _ => apply N.eqb_eq in H; subst end).
  assert (T1 : sum_all (map fst l) = cycles_of (length l) l) by (unfold cycles_of; now rewrite firstn_all).
  assert (T2 : sum_all (map snd l) = time_of (length l) l) by (unfold time_of; now rewrite firstn_all).
  rewrite T1, T2. now apply written_shows.
Qed.

Lemma sum_u64_sum l : sum_all l < 2 ^ 64 -> sum_u64 l = sum_all l.
Proof.
  intros H. unfold sum_u64. rewrite <- (N.add_0_l (sum_all l)). assert (H0 : 0 + sum_all l < 2 ^ 64) by now rewrite N.add_0_l.
  clear H. revert H0. generalize 0. induction l as [|x l IH]; intros a H; [symmetry; apply N.add_0_r|].
  change (sum_all (x :: l)) with (x + sum_all l) in *. cbn [fold_left].
  assert (E : (a + x) mod 2 ^ 64 = a + x) by (apply N.mod_small; lia). rewrite E, IH; lia.
Qed.

Lemma C78_disks_proof disks :
  forall (Hdisks : disks_ok disks),
  exists n d, disk_used_percent disks = FFin false n d /\ 0 < d /\ close (frac n d) (free_percent disks).
Proof.
  intros (H1 & H2 & H3). unfold disk_used_percent, free_percent. rewrite !sum_u64_sum by assumption.
  set (a := sum_all (map dk_available disks)) in *. set (t := sum_all (map dk_total disks)) in *. clearbody a t.
  assert (Hbig : 2 ^ 64 < 2 ^ 100) by reflexivity.
  assert (Pt : (0 < number t)%Q) by (apply NQ_pos; exact H2).
  assert (At : approx 1 (f64_of t) (number t)) by (apply approx_of; lia).
  destruct (N.eq_dec a 0) as [->|Ha].
  - exists 0, 1. split; [|split; [lia|]].
    + destruct (approx_nonzero 1 _ _ Pt At) as (n & d & -> & Hn & Hd).
      change (f64_of 0) with (FFin false 0 1). cbn [f64_div xorb]. destruct (N.eqb_spec n 0); [lia|]. reflexivity.
    + unfold close. rewrite !frac_0. vm_compute. discriminate.
  - assert (Bt : between 64 (number t)) by (apply between_N; lia).
    assert (Ba : between 64 (number a)) by (apply between_N; lia).
    assert (B1 : between 128 (number a / number t)) by now apply (between_div 64 64).
    assert (B2 : between 135 (number a / number t * number 100)).
    { apply (between_mul 128 7); [exact B1|]. apply between_N; vm_compute; discriminate. }
    assert (A1 : approx 3 (f64_div (f64_of a) (f64_of t)) (number a / number t)).
    { apply (approx_div 1 1); [lia|now apply between_mono with 128%N; [lia|]|exact Pt|apply approx_of; lia|exact At]. }
    assert (A2 : approx 5 (f64_mul (f64_div (f64_of a) (f64_of t)) (f64_of 100)) (number a / number t * number 100)).
    { apply (approx_mul 3 1); [lia|now apply between_mono with 135%N; [lia|]|exact A1|apply approx_of; reflexivity]. }
    apply (approx_eq _ _ _ (100 * frac a t)%Q) in A2; [|rewrite frac_eq; change (number 100) with 100%Q; apply Qmult_comm].
    destruct (close_value 5 _ _ ltac:(lia) A2) as (n & d & E & Hd & Hc). eauto.
Qed.

(** ** Examples *)

(** Two proofs are counted while the monitor reads. *)
Definition toy_proofs : list (timed node_event) := [Op (EMetrics 3000000 1500000000 tt); Op (EMetrics 1000000 60000000007 tt)].
Definition toy_readings : list counter_event := [MReadFulfilled 1; MReadCycles 4000000; MReadTime 61500000007].
Definition toy_line : metrics_line :=
  MetricsLine [49] [52; 46; 48; 48; 77] [49; 109; 32; 49; 115; 32; 53; 48; 48; 109; 115; 32; 55; 110; 115]
    [48; 46; 48; 55; 32; 77; 72; 122].
Definition toy_history : list counter_event :=
  [MAddCycles 3000000; MAddTime 1500000000; MAddFulfilled; MReadFulfilled 1; MAddCycles 1000000; MReadCycles 4000000;
   MAddTime 60000000007; MReadTime 61500000007; MAddFulfilled].
Lemma C78_line_case_proof :
  runs record_metrics toy_readings toy_line /\ interleaving [flat_map counter_updates toy_proofs; toy_readings] toy_history /\
  counter_history counters_start toy_history /\ fit_64_bits (proofs_counted toy_proofs).
Proof.
  split; [|split; [|split]].
  - do 3 (eexists; eexists; split; [reflexivity|]). split; [reflexivity|]. vm_compute. reflexivity.
  - unfold toy_history, toy_proofs, toy_readings. cbn [flat_map counter_updates app].
    do 3 (apply (il_step [])). eapply (il_step [_]). apply (il_step []). eapply (il_step [_]).
    apply (il_step []). eapply (il_step [_]). apply (il_step []). apply il_done. repeat constructor.
  - cbn [counter_history toy_history counters_start]. repeat (eexists; split; [vm_compute; reflexivity|]). exact I.
  - vm_compute. auto.
Qed.
Lemma C78_quiet_case_proof :
  runs record_metrics [MReadFulfilled 2; MReadCycles 4000000; MReadTime 61500000007]
    (MetricsLine [50] (ml_cycles toy_line) (ml_time toy_line) (ml_throughput toy_line)) /\
  counter_history counters_start
    (flat_map counter_updates toy_proofs ++ [MReadFulfilled 2; MReadCycles 4000000; MReadTime 61500000007] ++
     flat_map counter_updates toy_proofs).
Proof.
  split.
  - do 3 (eexists; eexists; split; [reflexivity|]). split; [reflexivity|]. vm_compute. reflexivity.
  - cbn [flat_map counter_updates app counter_history toy_proofs counters_start].
    repeat (eexists; split; [vm_compute; reflexivity|]). exact I.
Qed.

(** The network refuses the fulfilment; the proof counts all the same. *)
Definition toy_refused : list sys_label :=
  toy_assigned ++
  map LProve (map Op (downloaded toy_request toy_program toy_stdin ++
                      proved toy_program toy_stdin [7] CompressedMode 99 (Some [8; 8]) 30)) ++
  map LProve [Clock 0; Op (ENonce (address_bytes toy_node) (Ok 3));
              Op (EFulfill (fulfill_message toy_node 3 [9; 9] [8; 8]) (Err toy_gone))] ++
  [LBid (Op (EOwner (address_bytes toy_node) (Err toy_down))); LRound].
Lemma toy_refused_runs : exists s, sys_run 12 toy_node toy_refused s /\ sy_returned s = None.
Proof. toy_steps. reflexivity. Qed.
Lemma C78_fulfilled_refuted_proof : exists n ls s tr line,
  sys_run 12 n ls s /\ runs record_metrics tr line /\
  counter_history counters_start (flat_map counter_updates (prove_events ls) ++ tr) /\
  is_decimal 1 (ml_fulfilled line) /\ fulfilments_accepted (prove_events ls) = 0%nat.
Proof.
  destruct toy_refused_runs as (s & Hs & _).
  exists toy_node, toy_refused, s, [MReadFulfilled 1; MReadCycles 99; MReadTime 30], (written 1 99 30).
  split; [exact Hs|]. split; [|split; [|split]].
  - do 3 (eexists; eexists; split; [reflexivity|]). split; reflexivity.
  - cbn [counter_history counters_start toy_refused]. cbn. repeat (eexists; split; [vm_compute; reflexivity|]). exact I.
  - split; [repeat constructor; lia|]. split; [discriminate|reflexivity].
  - reflexivity.
Qed.
Lemma C78_disk_used_refuted_proof : exists disks n d,
  disks_ok disks /\ disk_used_percent disks = FFin false n d /\ (frac n d <= 10)%Q /\ (used_percent disks == 90)%Q.
Proof.
  exists [Disk 600 50; Disk 400 50]. eexists. eexists. split; [vm_compute; auto|]. split; [vm_compute; reflexivity|].
  split; vm_compute; [discriminate|reflexivity].
Qed.
Lemma C78_disks_case_proof : disks_ok [Disk 600 50; Disk 400 50] /\ (free_percent [Disk 600 50; Disk 400 50] == 10)%Q.
Proof. split; vm_compute; auto. Qed.
Lemma C78_counted_case_proof :
  (exists s, sys_run 12 toy_node toy_refused s) /\ proofs_made (prove_events toy_refused) = [(99, 30)] /\
  proofs_counted (prove_events toy_refused) = [(99, 30)].
Proof. destruct toy_refused_runs as (s & Hs & _). split; [now exists s|]. split; reflexivity. Qed.
