(** A concrete deployment of the staking contract and logs of calls, for the examples beside the
    properties. *)
From Verif Require Export StakingRights.
From Coq Require Import Lia ZifyBool ZifyN ZifyNat.
Open Scope N_scope.

(** Running a list of calls and writing the log. *)
Inductive stk_step : Type := SCall (x : staking_ctx) (c : staking_call) | SToken (o : token_op).

Fixpoint stk_exec (K : staking_env) (l : list stk_step) (s : staking) : list stk_entry * staking :=
  match l with
  | [] => ([], s)
  | SCall x c :: rest =>
      match staking_run K x c s with
      | Ok (s1, evs) => let (log, s') := stk_exec K rest s1 in (KAccepted x c evs s1 :: log, s')
      | Err e => let (log, s') := stk_exec K rest s in (KReverted x c e :: log, s')
      end
  | SToken o :: rest =>
      match run_token_op (bk_prove (sk_bank s)) o with
      | Ok t => let (log, s') := stk_exec K rest (sk_set_bank (bk_set_prove t (sk_bank s)) s) in (KTokenOp o :: log, s')
      | Err _ => stk_exec K rest s
      end
  end.

Lemma stk_exec_ok K l : forall s log s', stk_exec K l s = (log, s') -> stk_history K s log s'.
Proof.
  induction l as [|[x c|o] rest IH]; cbn [stk_exec]; intros s log s' H.
  - apply pair_equal_spec in H as [<- <-]. constructor.
  - destruct (staking_run K x c s) as [[s1 evs]|e] eqn:Hr.
    + destruct (stk_exec K rest s1) as [log1 s2] eqn:He. apply pair_equal_spec in H as [<- <-].
      exact (kh_accepted K s x c s1 evs log1 s2 Hr (IH _ _ _ He)).
    + destruct (stk_exec K rest s) as [log1 s2] eqn:He. apply pair_equal_spec in H as [<- <-].
      exact (kh_reverted K s x c e log1 s2 Hr (IH _ _ _ He)).
  - destruct (run_token_op (bk_prove (sk_bank s)) o) as [t|e] eqn:Ht.
    + destruct (stk_exec K rest (sk_set_bank (bk_set_prove t (sk_bank s)) s)) as [log1 s2] eqn:He.
      apply pair_equal_spec in H as [<- <-]. exact (kh_token K s o t log1 s2 Ht (IH _ _ _ He)).
    + exact (IH _ _ _ H).
Qed.

(** Deciding the hypotheses of the properties. *)
Definition outsideb (K : staking_env) (a : N) : bool := negb (a =? ke_self K) && negb (a =? ke_iprove K).
Definition by_outsiderb (K : staking_env) (e : stk_entry) : bool :=
  match e with
  | KAccepted x c _ _ =>
      outsideb K (kx_sender x) && match c with KPermitAndStake _ from _ => outsideb K from | _ => true end
  | KReverted _ _ _ => true
  | KTokenOp o =>
      match o with
      | OTransfer a _ _ | OTransferFrom a _ _ _ | OApprove a _ _ | OBurn a _ | OBurnFrom a _ _ => outsideb K a
      | OMint _ _ => true
      end
  end.
Lemma outsideb_ok K a : outsideb K a = true -> outside K a.
Proof.
  unfold outsideb, outside. rewrite andb_true_iff, !negb_true_iff, !N.eqb_neq. auto.
Qed.
Lemma by_outsiderb_ok K log : forallb (by_outsiderb K) log = true -> Forall (by_outsider K) log.
Proof.
  intros H. apply Forall_forall. intros e He. rewrite forallb_forall in H.
  apply elem_of_list_In in He. specialize (H e He). destruct e as [x c evs s|x c e|o]; cbn [by_outsiderb by_outsider] in *.
  - apply andb_true_iff in H as [H1 H2]. split; [now apply outsideb_ok|].
    destruct c; try exact I. now apply outsideb_ok.
  - exact I.
  - destruct o; try exact I; now apply outsideb_ok.
Qed.

Definition not_wipedb (p : N) (e : stk_entry) : bool :=
  match e with
  | KAccepted _ (KFinishSlash q _) _ after => negb (q =? p) || negb (ep_factor (pool_of after p) =? 0)
  | _ => true
  end.
Definition no_slash_ofb (p : N) (e : stk_entry) : bool :=
  match e with KAccepted _ (KFinishSlash q _) _ _ => negb (q =? p) | _ => true end.
Definition no_request_byb (a : N) (e : stk_entry) : bool :=
  match e with KAccepted x (KRequestUnstake _) _ _ => negb (kx_sender x =? a) | _ => true end.
Lemma forallb_all {X} (f : X -> bool) (P : X -> Prop) l :
  (forall x, f x = true -> P x) -> forallb f l = true -> Forall P l.
Proof. intros Hf H. apply Forall_forall. intros x Hx. rewrite forallb_forall in H. now apply Hf, H, elem_of_list_In. Qed.
Lemma not_wipedb_ok p log : forallb (not_wipedb p) log = true -> Forall (not_wiped p) log.
Proof.
  apply forallb_all. intros [x c evs s|x c e|o]; try (intros; exact I). destruct c; cbn [not_wipedb not_wiped]; try (intros; exact I).
  intros H E. rewrite E, N.eqb_refl in H. cbn [negb orb] in H. now apply N.eqb_neq, negb_true_iff.
Qed.
Lemma no_slash_ofb_ok p log : forallb (no_slash_ofb p) log = true -> Forall (no_slash_of p) log.
Proof.
  apply forallb_all. intros [x c evs s|x c e|o]; try (intros; exact I). destruct c; cbn [no_slash_ofb no_slash_of]; try (intros; exact I).
  intros H. now apply N.eqb_neq, negb_true_iff.
Qed.
Lemma no_request_byb_ok a log : forallb (no_request_byb a) log = true -> Forall (no_request_by a) log.
Proof.
  apply forallb_all. intros [x c evs s|x c e|o]; try (intros; exact I). destruct c; cbn [no_request_byb no_request_by]; try (intros; exact I).
  intros H. now apply N.eqb_neq, negb_true_iff.
Qed.

Fixpoint in_orderb (since : N) (log : list stk_entry) (now : N) : bool :=
  match log with
  | [] => since <=? now
  | KAccepted x _ _ _ :: rest => (since <=? kx_time x) && in_orderb (kx_time x) rest now
  | _ :: rest => in_orderb since rest now
  end.
Lemma in_orderb_ok log now : forall since, in_orderb since log now = true -> in_order since log now.
Proof.
  induction log as [|[x c evs s|x c e|o] rest IH]; cbn [in_orderb in_order]; intros since H; auto.
  - now apply N.leb_le.
  - apply andb_true_iff in H as [H1 H2]. split; [now apply N.leb_le|auto].
Qed.

(** ** A deployment *)

(** Alice, Bob, the prover's owner, the dispenser. *)
Definition sk_alice : N := 1.
Definition sk_bob : N := 2.
Definition sk_keeper : N := 3.
Definition sk_carol : N := 4.
Definition sk_giver : N := 5.
Definition toy_sk : staking_env := StakingEnv 10 11 12 1 10 100 50 (fun o n f => 1000 + n).
Definition toy_prove : token :=
  Token (list_to_map [(sk_alice, 5000); (sk_bob, 5000); (10, 400); (12, 2000)])
    (list_to_map [((sk_alice, 10), 5000); ((sk_bob, 10), 5000); ((12, 11), 2000)]).
Definition toy_sk0 : staking := Eval vm_compute in
  match staking_initialize toy_sk toy_prove sk_keeper 20 21 sk_giver with
  | Some s => s
  | None => Staking 0 (Bank (Token ∅ ∅) (Token ∅ ∅) 0 ∅ ∅ 0) (Registry ∅ ∅ ∅ 0) (Dispensing 0 0 0 0 0) ∅ ∅ ∅ ∅ ∅
  end.

Definition at_ (a t : N) : staking_ctx := StakingCtx a t 5 6 true true.
Definition toy_prover : N := 1001.

(** Two stakers, a reward, dispensing, an unstake request, a slash, another request, a payment. *)
Definition toy_steps1 : list stk_step :=
  [ SCall (at_ sk_carol 10) (KCreateProver 500);
    SCall (at_ sk_alice 20) (KStake toy_prover 1000);
    SCall (at_ sk_bob 21) (KPermitAndStake toy_prover sk_bob 500);
    SCall (at_ 12 22) (KReward toy_prover 150);
    SToken (OTransfer sk_alice sk_carol 5);
    SCall (at_ sk_keeper 30) (KUpdateRate 7);
    SCall (at_ sk_giver 40) (KDispense 50);
    SCall (at_ sk_giver 41) (KDispense 100);
    SCall (at_ sk_alice 50) (KRequestUnstake 400) ].
Definition toy_steps2 : list stk_step :=
  [ SCall (at_ 12 51) (KRequestSlash toy_prover 300);
    SCall (at_ sk_bob 52) (KStake toy_prover 10) ].
Definition toy_steps3 : list stk_step :=
  [ SCall (at_ sk_keeper 70) (KFinishSlash toy_prover 0);
    SCall (at_ sk_keeper 71) (KFinishSlash toy_prover 0);
    SCall (at_ sk_bob 80) (KRequestUnstake 100);
    SCall (at_ 12 81) (KRequestSlash toy_prover 40) ].
Definition toy_steps4 : list stk_step :=
  [ SCall (at_ sk_carol 142) (KCancelSlash toy_prover 1);
    SCall (at_ sk_carol 170) (KFinishUnstake sk_alice) ].

(** After each part. *)
Definition toy_run1 := stk_exec toy_sk toy_steps1 toy_sk0.
Definition toy_run2 := stk_exec toy_sk (toy_steps1 ++ toy_steps2) toy_sk0.
Definition toy_run3 := stk_exec toy_sk (toy_steps1 ++ toy_steps2 ++ toy_steps3) toy_sk0.
Definition toy_run4 := stk_exec toy_sk (toy_steps1 ++ toy_steps2 ++ toy_steps3 ++ toy_steps4) toy_sk0.

(** A prover that is slashed by half, then completely, and then staked on again. *)
Definition toy_wiped : list stk_step :=
  [ SCall (at_ sk_carol 10) (KCreateProver 500);
    SCall (at_ sk_alice 20) (KStake toy_prover 1000);
    SCall (at_ 12 21) (KRequestSlash toy_prover 500);
    SCall (at_ sk_keeper 22) (KFinishSlash toy_prover 0);
    SCall (at_ sk_alice 23) (KRequestUnstake 1000);
    SCall (at_ 12 24) (KRequestSlash toy_prover 5000);
    SCall (at_ sk_keeper 25) (KFinishSlash toy_prover 1);
    SCall (at_ sk_bob 26) (KStake toy_prover 1000);
    SCall (at_ sk_bob 27) (KRequestUnstake 1000) ].
Definition toy_run_wiped := stk_exec toy_sk toy_wiped toy_sk0.

Lemma toy_sk_addresses : stk_addresses_ok toy_sk.
Proof.
  constructor; cbn [toy_sk ke_self ke_iprove ke_vapp ke_create2]; try discriminate; [split; discriminate|].
  intros o n f. repeat split; intros H; revert H; clear; intros; destruct n; cbn in *; lia.
Qed.

Lemma toy_sk_start : staking_initialize toy_sk toy_prove sk_keeper 20 21 sk_giver = Some toy_sk0.
Proof. vm_compute. reflexivity. Qed.

Lemma toy_sk_run l log s :
  stk_exec toy_sk l toy_sk0 = (log, s) -> forallb (by_outsiderb toy_sk) log = true -> stk_run toy_sk log s.
Proof.
  intros He Ho. constructor.
  - exact toy_sk_addresses.
  - exists toy_prove, sk_keeper, 20, 21, sk_giver, toy_sk0. split; [|split].
    + intros a. unfold tk_allowance, toy_prove. cbn [tk_allowances toy_sk ke_self ke_iprove].
      split; (destruct (_ !! _) as [n|] eqn:E; [|reflexivity]); apply elem_of_list_to_map_2 in E;
        repeat (apply elem_of_cons in E as [E|E]; [discriminate E|]); now apply elem_of_nil in E.
    + exact toy_sk_start.
    + exact (stk_exec_ok _ _ _ _ _ He).
  - exact (by_outsiderb_ok _ _ Ho).
Qed.

Lemma toy_is_run1 : stk_run toy_sk toy_run1.1 toy_run1.2.
Proof. apply (toy_sk_run toy_steps1); [apply surjective_pairing|vm_compute; reflexivity]. Qed.
Lemma toy_is_run2 : stk_run toy_sk toy_run2.1 toy_run2.2.
Proof. apply (toy_sk_run (toy_steps1 ++ toy_steps2)); [apply surjective_pairing|vm_compute; reflexivity]. Qed.
Lemma toy_is_run3 : stk_run toy_sk toy_run3.1 toy_run3.2.
Proof. apply (toy_sk_run (toy_steps1 ++ toy_steps2 ++ toy_steps3)); [apply surjective_pairing|vm_compute; reflexivity]. Qed.
Lemma toy_is_run4 : stk_run toy_sk toy_run4.1 toy_run4.2.
Proof.
  apply (toy_sk_run (toy_steps1 ++ toy_steps2 ++ toy_steps3 ++ toy_steps4)); [apply surjective_pairing|vm_compute; reflexivity].
Qed.
Lemma toy_is_wiped : stk_run toy_sk toy_run_wiped.1 toy_run_wiped.2.
Proof. apply (toy_sk_run toy_wiped); [apply surjective_pairing|vm_compute; reflexivity]. Qed.

(** Alice requests once more, rewards are dispensed, both claims are paid, Alice stakes again. *)
Definition toy_more : list stk_step :=
  [ SCall (at_ sk_alice 60) (KRequestUnstake 300); SCall (at_ sk_giver 61) (KDispense u256_max);
    SCall (at_ sk_carol 160) (KFinishUnstake sk_alice); SCall (at_ sk_alice 161) (KStake toy_prover 77) ].

(** The events of one call. *)
Definition run_events (K : staking_env) (x : staking_ctx) (c : staking_call) (s : staking)
    : result (list staking_event) staking_error :=
  match staking_run K x c s with Ok (_, evs) => Ok evs | Err e => Err e end.
Lemma run_events_ok K x c s evs : run_events K x c s = Ok evs -> exists s', staking_run K x c s = Ok (s', evs).
Proof.
  unfold run_events. destruct (staking_run K x c s) as [[s' evs']|e]; [|discriminate].
  intros H. injection H as <-. eauto.
Qed.
(** Before Alice is paid. *)
Definition toy_steps34 : list stk_step := toy_steps3 ++ take 1 toy_steps4.
Definition toy_run34 := stk_exec toy_sk (toy_steps1 ++ toy_steps2 ++ toy_steps34) toy_sk0.
Lemma toy_is_run34 : stk_run toy_sk toy_run34.1 toy_run34.2.
Proof. apply (toy_sk_run (toy_steps1 ++ toy_steps2 ++ toy_steps34)); [apply surjective_pairing|vm_compute; reflexivity]. Qed.
(** Before Bob requests. *)
Definition toy_run3b := stk_exec toy_sk (toy_steps1 ++ toy_steps2 ++ take 1 toy_steps3) toy_sk0.
Lemma toy_is_run3b : stk_run toy_sk toy_run3b.1 toy_run3b.2.
Proof. apply (toy_sk_run (toy_steps1 ++ toy_steps2 ++ take 1 toy_steps3)); [apply surjective_pairing|vm_compute; reflexivity]. Qed.

Definition resolvedb (s : staking) (p : N) : bool := forallb sc_resolved (slashes_of s p).
Lemma resolvedb_ok s p : resolvedb s p = true -> ~ slash_pending s p.
Proof.
  intros H (c & Hc & Hf). unfold resolvedb in H. rewrite forallb_forall in H.
  rewrite (H c) in Hf; [discriminate|now apply elem_of_list_In].
Qed.

(** A prover whose shares are slashed to almost nothing, without any open claim. *)
Definition toy_dust : list stk_step :=
  [ SCall (at_ sk_carol 10) (KCreateProver 500);
    SCall (at_ sk_alice 20) (KStake toy_prover 5000);
    SCall (at_ 12 21) (KRequestSlash toy_prover 9000) ].
Definition toy_run_dust := stk_exec toy_sk toy_dust toy_sk0.
Lemma toy_is_dust : stk_run toy_sk toy_run_dust.1 toy_run_dust.2.
Proof. apply (toy_sk_run toy_dust); [apply surjective_pairing|vm_compute; reflexivity]. Qed.
