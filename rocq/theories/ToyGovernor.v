(** A concrete deployment with governance and logs of calls, for the examples beside the properties. *)
From Verif Require Export Proofs_Governor ToyStaking.
From Coq Require Import Lia ZifyBool ZifyN ZifyNat.
Open Scope N_scope.

(** Deciding who may call. *)
Definition actsb (G : gov_env) (w : world) (a : N) : bool :=
  negb (a =? 0) && outsideb (ge_staking G) a && negb (a =? ge_self G) && negb (bool_decide (a ∈ provers w)).
Definition permitb (G : gov_env) (c : staking_call) : bool :=
  match c with KPermitAndStake _ from _ => outsideb (ge_staking G) from | _ => true end.
Definition by_anyoneb (G : gov_env) (w : world) (x : staking_ctx) (c : world_call) : bool :=
  actsb G w (kx_sender x) &&
  match c with
  | WStaking c => permitb G c
  | WToken o => by_outsiderb (ge_staking G) (KTokenOp o)
  | WExecute actions _ _ => forallb (fun a => match a with GaStaking c => permitb G c | _ => true end) actions
  | _ => true
  end.
Lemma permitb_ok G c : permitb G c = true -> no_permit_of_contracts G c.
Proof. destruct c; cbn; try (intros; exact I). apply outsideb_ok. Qed.
Lemma by_anyoneb_ok G w x c : by_anyoneb G w x c = true -> by_anyone G w x c.
Proof.
  unfold by_anyoneb, actsb, by_anyone, acts. rewrite !andb_true_iff, !negb_true_iff, !N.eqb_neq, bool_decide_eq_false.
  intros [(((H1 & H2) & H3) & H4) H5]. split; [split; [exact H1|split; [now apply outsideb_ok|auto]]|].
  destruct c; try exact I.
  - now apply permitb_ok.
  - destruct o; cbn in *; try exact I; now apply outsideb_ok.
  - revert H5. apply forallb_all. intros [c|n|n|n|n|o|vc|target]; try (intros; exact I). apply permitb_ok.
Qed.

(** Running a list of calls and writing the log; nothing if a call is not allowed by the rules of logs. *)
Fixpoint gov_exec (G : gov_env) (l : list (staking_ctx * world_call)) (log : list gov_entry) (w : world) (now : N)
    : option (list gov_entry * world * N) :=
  match l with
  | [] => Some (log, w, now)
  | (x, c) :: rest =>
      if (now <=? kx_time x) && (kx_time x <? 2 ^ 48) && by_anyoneb G w x c then
        match world_run G x c w with
        | Ok w' => gov_exec G rest (log ++ [WAccepted x c w']) w' (kx_time x)
        | Err e => gov_exec G rest (log ++ [WReverted x c e]) w (kx_time x)
        end
      else None
  end.
Lemma gov_exec_ok G t0 w0 l : forall log w now log' w' now', gov_run G t0 w0 log w now ->
  gov_exec G l log w now = Some (log', w', now') -> gov_run G t0 w0 log' w' now'.
Proof.
  induction l as [|[x c] rest IH]; intros log w now log' w' now' Hr H; cbn [gov_exec] in H.
  - injection H as <- <- <-. exact Hr.
  - destruct (_ && _ && _) eqn:E in H; [|discriminate]. apply andb_true_iff in E as [E E3]. apply andb_true_iff in E as [E1 E2].
    apply N.leb_le in E1. apply N.ltb_lt in E2. apply by_anyoneb_ok in E3.
    pose proof (gr_wait _ _ _ _ _ _ _ Hr E1 E2) as Hw.
    destruct (world_run G x c w) as [w1|e] eqn:Ew; (eapply IH; [|exact H]).
    + eapply gr_accepted; [exact Hw|reflexivity|exact E3|exact Ew].
    + eapply gr_reverted; [exact Hw|reflexivity|exact E3|exact Ew].
Qed.

(** ** A deployment *)

(** The number of a proposal is that of its description; description 77 is for the prover 1001. *)
Definition toy_gov : gov_env := GovEnv toy_sk 20 (fun _ d => d) (fun d => if d =? 77 then Some 1001 else None).
Definition toy_gov_staking : staking := Eval vm_compute in
  match staking_initialize toy_sk toy_prove 20 20 21 sk_giver with Some s => s | None => toy_sk0 end.
Definition toy_world : world :=
  World toy_gov_staking (Votes ∅ ∅ []) (Governor 5 6 100 [(1, 4)] ∅).
Lemma toy_gov_start : gov_start toy_gov 1 toy_world.
Proof.
  split.
  - exact toy_sk_addresses.
  - split; [discriminate|]. split; discriminate.
  - intros o n f. cbn. lia.
  - lia.
  - exists toy_prove, 20, 21, sk_giver, toy_gov_staking, 5, 6, 100, 4, (Governor 5 6 100 [(1, 4)] ∅).
    split; [|split; [vm_compute; reflexivity|split; [vm_compute; reflexivity|reflexivity]]].
    intros a. unfold tk_allowance, toy_prove. cbn [tk_allowances toy_gov ge_staking toy_sk ke_self ke_iprove].
    split; (destruct (_ !! _) as [n|] eqn:E; [|reflexivity]); apply elem_of_list_to_map_2 in E;
      repeat (apply elem_of_cons in E as [E|E]; [discriminate E|]); now apply elem_of_nil in E.
Qed.

(** Carol has prover 1001, the keeper has prover 1002; Alice stakes 1000 on the one, Bob 400 on the other. *)
Definition prover_c : N := 1001.
Definition prover_k : N := 1002.
Definition toy_gov1 : list (staking_ctx * world_call) :=
  [ (at_ sk_carol 10, WStaking (KCreateProver 500));
    (at_ sk_keeper 11, WStaking (KCreateProver 500));
    (at_ sk_alice 20, WStaking (KStake prover_c 1000));
    (at_ sk_bob 21, WStaking (KStake prover_k 400));
    (at_ sk_alice 22, WDelegate sk_bob);
    (at_ sk_bob 25, WStaking (KRequestUnstake 50));
    (at_ 12 30, WStaking (KRequestSlash prover_k 100)) ].
(** A vote on the slash of prover 1002. *)
Definition slash_it (i : N) : list gov_action := [GaStaking (KFinishSlash prover_k i)].
Definition toy_gov2 : list (staking_ctx * world_call) :=
  [ (at_ sk_alice 39, WPropose None (slash_it 0) 7);
    (at_ sk_carol 40, WPropose (Some prover_c) (slash_it 0) 7);
    (at_ sk_carol 45, WVote (Some prover_c) 7 1);
    (at_ sk_carol 46, WVote (Some prover_c) 7 1);
    (at_ sk_keeper 47, WVote (Some prover_k) 7 0);
    (at_ sk_alice 48, WVote None 7 2);
    (at_ sk_alice 49, WVote (Some prover_c) 7 0);
    (at_ sk_bob 50, WStaking (KCancelSlash prover_k 0));
    (at_ sk_giver 51, WExecute (slash_it 0) 7 true) ].
Definition toy_gov3 : list (staking_ctx * world_call) :=
  [ (at_ sk_giver 52, WExecute (slash_it 0) 7 true);
    (at_ sk_giver 53, WExecute (slash_it 0) 7 true) ].
(** A vote on shorter votes, while another slash is voted on. *)
Definition shorter : list gov_action := [GaDelay 0; GaPeriod 1; GaQuorum 10].
Definition toy_gov4 : list (staking_ctx * world_call) :=
  [ (at_ 12 60, WStaking (KRequestSlash prover_k 20));
    (at_ sk_carol 100, WPropose (Some prover_c) shorter 8);
    (at_ sk_carol 106, WVote (Some prover_c) 8 1);
    (at_ sk_carol 107, WPropose (Some prover_c) (slash_it 9) 10);
    (at_ sk_carol 108, WCancel (Some prover_c) (slash_it 9) 10);
    (at_ sk_carol 109, WPropose (Some prover_c) (slash_it 1) 9);
    (at_ sk_giver 112, WExecute shorter 8 true) ].

Definition toy_gov_after (l : list (staking_ctx * world_call)) : list gov_entry * world * N :=
  match gov_exec toy_gov l [] toy_world 1 with Some r => r | None => ([], toy_world, 1) end.
Lemma toy_gov_run l : gov_run toy_gov 1 toy_world (toy_gov_after l).1.1 (toy_gov_after l).1.2 (toy_gov_after l).2.
Proof.
  unfold toy_gov_after. destruct (gov_exec toy_gov l [] toy_world 1) as [[[log w] now]|] eqn:E.
  - eapply gov_exec_ok; [exact (gr_start _ _ _ toy_gov_start)|exact E].
  - exact (gr_start _ _ _ toy_gov_start).
Qed.

Definition log_of (r : list gov_entry * world * N) : list gov_entry := r.1.1.
Definition world_of (r : list gov_entry * world * N) : world := r.1.2.
Definition time_of (r : list gov_entry * world * N) : N := r.2.
(** The outcome of the calls, in order. *)
Definition outcomes (l : list gov_entry) : list (option gov_error) :=
  map (fun e => match e with WAccepted _ _ _ => None | WReverted _ _ e => Some e end) l.

(** After each part. *)
Definition gov_run1 := toy_gov_after (toy_gov1).
Definition gov_run2 := toy_gov_after (toy_gov1 ++ toy_gov2).
Definition gov_run3 := toy_gov_after (toy_gov1 ++ toy_gov2 ++ toy_gov3).
Definition gov_run4 := toy_gov_after (toy_gov1 ++ toy_gov2 ++ toy_gov3 ++ toy_gov4).
Lemma is_gov_run1 : gov_run toy_gov 1 toy_world (log_of gov_run1) (world_of gov_run1) (time_of gov_run1).
Proof. unfold log_of, world_of, time_of, gov_run1. apply toy_gov_run. Qed.
Lemma is_gov_run2 : gov_run toy_gov 1 toy_world (log_of gov_run2) (world_of gov_run2) (time_of gov_run2).
Proof. unfold log_of, world_of, time_of, gov_run2. apply toy_gov_run. Qed.
Lemma is_gov_run3 : gov_run toy_gov 1 toy_world (log_of gov_run3) (world_of gov_run3) (time_of gov_run3).
Proof. unfold log_of, world_of, time_of, gov_run3. apply toy_gov_run. Qed.
Lemma is_gov_run4 : gov_run toy_gov 1 toy_world (log_of gov_run4) (world_of gov_run4) (time_of gov_run4).
Proof. unfold log_of, world_of, time_of, gov_run4. apply toy_gov_run. Qed.

(** ** Cancelled during the vote *)

Lemma C81_in_time_refuted_proof :
  exists G t0 w0 l1 x0 via p i desc w1 l2 w now c x w',
    gov_run G t0 w0 (l1 ++ WAccepted x0 (WPropose via [GaStaking (KFinishSlash p i)] desc) w1 :: l2) w now /\
    sk_owner (w_staking w) = ge_self G /\
    slashes_of (w_staking w) p !! N.to_nat i = Some c /\
    kx_time x0 < sc_time c + ke_cancel_period (ge_staking G) /\
    now <= kx_time x0 + gv_delay (w_governor (final w0 l1)) + gv_period (w_governor (final w0 l1)) /\
    kx_time x = now /\ by_anyone G w x (WStaking (KCancelSlash p i)) /\
    world_run G x (WStaking (KCancelSlash p i)) w = Ok w'.
Proof.
  pose proof is_gov_run4 as Hr.
  assert (Hc : match skipn 23 (log_of gov_run4) with
    | WAccepted x (WPropose via actions d) _ :: _ =>
        x = at_ sk_carol 109 /\ via = Some prover_c /\ actions = slash_it 1 /\ d = 9
    | _ => False end /\ time_of gov_run4 = 112 /\ sk_owner (w_staking (world_of gov_run4)) = 20 /\
    slashes_of (w_staking (world_of gov_run4)) prover_k !! 1%nat = Some (SlashClaim 20 60 false) /\
    by_anyoneb toy_gov (world_of gov_run4) (at_ sk_giver 112) (WStaking (KCancelSlash prover_k 1)) = true /\
    match world_run toy_gov (at_ sk_giver 112) (WStaking (KCancelSlash prover_k 1)) (world_of gov_run4) with
    | Ok _ => True | Err _ => False end)
    by (vm_compute; auto 10).
  assert (Hg : gv_delay (w_governor (final toy_world (firstn 23 (log_of gov_run4)))) = 5 /\
    gv_period (w_governor (final toy_world (firstn 23 (log_of gov_run4)))) = 6) by (vm_compute; auto).
  destruct Hc as (Es & Ht & Ho & Hs & Hb & Hx). rewrite Ht in Hr. destruct Hg as [Hg1 Hg2].
  pose proof (firstn_skipn 23 (log_of gov_run4)) as El.
  destruct (skipn 23 (log_of gov_run4)) as [|[x c w1|x c e] l2]; try exact (False_ind _ Es). destruct c; try exact (False_ind _ Es).
  destruct Es as (-> & -> & -> & ->). rewrite <- El in Hr. clear El.
  destruct (world_run toy_gov (at_ sk_giver 112) (WStaking (KCancelSlash prover_k 1)) (world_of gov_run4)) as [w'|err] eqn:Ec;
    [|exact (False_ind _ Hx)].
  exists toy_gov, 1, toy_world, (firstn 23 (log_of gov_run4)), (at_ sk_carol 109), (Some prover_c), prover_k, 1, 9, w1,
    l2, (world_of gov_run4), 112, (SlashClaim 20 60 false), (at_ sk_giver 112), w'.
  split; [exact Hr|]. split; [exact Ho|]. split; [exact Hs|]. split; [reflexivity|].
  split; [rewrite Hg1, Hg2; discriminate|]. split; [reflexivity|]. split; [apply by_anyoneb_ok; exact Hb|exact Ec].
Qed.
