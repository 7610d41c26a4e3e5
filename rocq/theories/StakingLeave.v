(** A staker who asks for the whole stake gets it. *)
From Verif Require Export StakingViews LeaveSpec.
From Coq Require Import Lia ZifyBool ZifyN ZifyNat.
Open Scope N_scope.

(** The open claims of [a], at the present price of $iPROVE. *)
Definition escrow_worth (K : staking_env) (s : staking) (a : N) : N :=
  list_total (fun c => iprove_worth K s (uc_escrow c)) (claims_of s a).

Lemma escrow_pending K p s a : unslashed p s -> claims_of s a = [] \/ bound_to s a = p -> pending_worth K s a = escrow_worth K s a.
Proof.
  intros Hu Hb. unfold pending_worth, escrow_worth. destruct Hb as [E|E]; [now rewrite E|].
  apply total_ext. intros c Hc. rewrite E. now rewrite (unslashed_value p s a c Hu E Hc).
Qed.

Lemma worth_price K s s' n m : i_price K (sk_bank s) (sk_bank s') -> n <= m -> iprove_worth K s n <= iprove_worth K s' m.
Proof. intros Hp Hn. unfold iprove_worth, redeemed. exact (preview_mono _ _ _ _ n m Hp Hn). Qed.

Lemma total_mono {X} (f g : X -> N) l : (forall x, f x <= g x) -> list_total f l <= list_total g l.
Proof.
  intros H. induction l as [|x l IH]; [rewrite !list_total_nil; lia|]. rewrite !list_total_cons. specialize (H x). lia.
Qed.

Lemma escrow_price K s s' a : i_price K (sk_bank s) (sk_bank s') -> claims_of s' a = claims_of s a ->
  escrow_worth K s a <= escrow_worth K s' a.
Proof.
  intros Hp E. unfold escrow_worth. rewrite E. apply total_mono. intros c. apply worth_price; [exact Hp|lia].
Qed.

(** Without a request of [a], only the finishing of [a]'s claims touches them. *)
Lemma claims_frame K x c s s' evs a :
  stk_inv K s -> by_outsider K (KAccepted x c evs s') -> staking_run K x c s = Ok (s', evs) ->
  no_request_by a (KAccepted x c evs s') -> c <> KFinishUnstake a ->
  claims_of s' a = claims_of s a /\ (claims_of s a <> [] -> bound_to s' a = bound_to s a).
Proof.
  intros Hinv Ho H Hn Hc.
  assert (Hstake : forall y q n t, stake_for K y q n (sk_set_bank (bk_set_prove t (sk_bank s)) s) = Ok (s', evs) ->
    claims_of s' a = claims_of s a /\ (claims_of s a <> [] -> bound_to s' a = bound_to s a)).
  { intros y q n t Hs. pose proof (stake_frame _ _ _ _ _ _ _ Hs) as (F1 & _ & _ & F3 & F4 & _).
    change (sk_claims s' = sk_claims s) in F1. change (bound_to s y = 0 \/ bound_to s y = q) in F4.
    split; [unfold claims_of; now rewrite F1|]. intros Hne. rewrite F3. destruct (N.eqb_spec a y) as [->|]; [|reflexivity].
    destruct F4 as [F4|F4]; [|congruence]. destruct (ki_unbound K s Hinv y F4). congruence. }
  destruct c;
    try (match type of H with staking_run _ _ ?c _ = _ => destruct (quiet_ok K x c s s' evs I H) as (Q0 & _ & Q2 & _ & _) end;
         unfold claims_of, bound_to; rewrite Q0, Q2; split; reflexivity).
  - destruct (stake_call_frame K x (KStake p amount) s s' evs Hinv Ho I H) as (y & q & n & t & _ & _ & _ & _ & Hs).
    exact (Hstake y q n t Hs).
  - destruct (stake_call_frame K x (KPermitAndStake p from amount) s s' evs Hinv Ho I H) as (y & q & n & t & _ & _ & _ & _ & Hs).
    exact (Hstake y q n t Hs).
  - cbn [no_request_by] in Hn. apply request_unstake_ok in H. cbv zeta in H.
    destruct H as (_ & _ & _ & _ & _ & b2 & e & _ & -> & _). split; [|reflexivity].
    rewrite claims_set. destruct (N.eqb_spec a (kx_sender x)); [congruence|reflexivity].
  - assert (Ha : a <> staker) by congruence.
    apply finish_unstake_ok in H. cbv zeta in H. destruct H as (_ & _ & _ & done & left & pool & b & _ & _ & _ & _ & ->).
    destruct (_ && (length left =? 0)%nat); rewrite ?bound_set; (split; [|intros _; destruct (N.eqb_spec a staker); [congruence|reflexivity] || reflexivity]).
    + match goal with |- claims_of (sk_set_bound _ _ ?s1) a = _ => change (claims_of s1 a = claims_of s a) end.
      rewrite claims_set. destruct (N.eqb_spec a staker); [congruence|reflexivity].
    + rewrite claims_set. destruct (N.eqb_spec a staker); [congruence|reflexivity].
  - apply finish_slash_ok in H. cbv zeta in H. destruct H as (c & d & burned & _ & _ & _ & _ & _ & H).
    destruct H as [[_ ->]|(b1 & b2 & f & _ & _ & _ & _ & ->)]; split; reflexivity.
Qed.

Lemma unslashed_not_wiped p e : no_slash_of p e -> not_wiped p e.
Proof. destruct e as [x c evs s| |]; try exact (fun _ => I). destruct c; try exact (fun _ => I). cbn. congruence. Qed.

(** What [a]'s open claims are worth falls only by what [a] is paid. *)
Lemma leave_step K L p x c s s' evs a :
  multiple_ok L -> stk_inv K s -> by_outsider K (KAccepted x c evs s') -> staking_run K x c s = Ok (s', evs) ->
  no_request_by a (KAccepted x c evs s') -> backed L p s -> unslashed p s ->
  claims_of s a = [] \/ bound_to s a = p ->
  escrow_worth K s a <= list_total (ev_paid_to a) evs + escrow_worth K s' a /\
  (claims_of s' a = [] \/ bound_to s' a = p).
Proof.
  intros HL Hinv Ho H Hn Hbk Hu Hb. destruct (price_step K x c s s' evs Hinv Ho H) as [Hip _].
  assert (Hdec : c = KFinishUnstake a \/ c <> KFinishUnstake a).
  { destruct c as [| | |y| | | | | | | | | |]; try (right; discriminate). destruct (N.eq_dec y a) as [->|]; [now left|right; congruence]. }
  destruct Hdec as [-> | Hc].
  - cbn [staking_run] in H. pose proof H as H0. apply finish_unstake_ok in H0. cbv zeta in H0.
    destruct H0 as (_ & Hne & _ & done0 & left0 & pool & b & _ & _ & _ & _ & Hs').
    destruct Hb as [Hb|Hb]; [congruence|]. rewrite <- Hb in Hbk.
    destruct (finish_backed_exact K L x a s s' evs HL Hinv Hbk H) as (done & Hp & _ & _ & He).
    split.
    + unfold escrow_worth at 1. rewrite (list_total_perm _ _ _ Hp), list_total_app.
      assert (H1 : list_total (fun c => iprove_worth K s (uc_escrow c)) (claims_of s' a) <= escrow_worth K s' a).
      { apply total_mono. intros c. apply worth_price; [exact Hip|lia]. }
      assert (H2 : list_total (fun c => iprove_worth K s (uc_escrow c)) done <= list_total (ev_paid_to a) evs).
      { assert (Hval : forall c, c ∈ done -> claim_value (ep_factor (pool_of s (bound_to s a))) c = uc_escrow c).
        { intros c Hc. rewrite Hb. apply (unslashed_value p s a c Hu Hb). rewrite Hp. apply elem_of_app. now left. }
        clear -He Hval. induction He as [|c ev done evs (prove & -> & Hle) _ IH]; [rewrite !list_total_nil; lia|].
        rewrite !list_total_cons. cbn [ev_paid_to]. rewrite N.eqb_refl. rewrite (Hval c ltac:(left)) in Hle.
        specialize (IH (fun c Hc => Hval c (elem_of_list_further _ _ _ Hc))). lia. }
      lia.
    + subst s'. destruct ((stake_of b a =? 0) && (length left0 =? 0)%nat) eqn:Ez.
      * left. apply andb_true_iff in Ez as [_ Ez]. apply Nat.eqb_eq in Ez.
        match goal with |- claims_of (sk_set_bound _ _ ?s1) a = _ => change (claims_of s1 a = []) end.
        rewrite claims_set, N.eqb_refl. now destruct left0.
      * right. exact Hb.
  - destruct (claims_frame K x c s s' evs a Hinv Ho H Hn Hc) as [Hcl Hbd]. split.
    + pose proof (escrow_price K s s' a Hip Hcl). lia.
    + destruct (claims_of s a) as [|c0 l] eqn:E; [left; now rewrite Hcl|]. right. rewrite Hbd by discriminate.
      destruct Hb as [Hb|Hb]; [discriminate|exact Hb].
Qed.

Lemma leave_history K L p s log s' a : multiple_ok L -> p <> 0 ->
  stk_history K s log s' -> stk_inv K s -> Forall (by_outsider K) log -> Forall (no_request_by a) log ->
  Forall (no_slash_of p) log -> backed L p s -> unslashed p s -> claims_of s a = [] \/ bound_to s a = p ->
  escrow_worth K s a <= claims_paid a log + escrow_worth K s' a /\
  (claims_of s' a = [] \/ bound_to s' a = p) /\ stk_inv K s' /\ backed L p s' /\ unslashed p s'.
Proof.
  intros HL Hp. unfold claims_paid.
  induction 1 as [s|s x c s1 evs log s' Hr _ IH|s x c e log s' Hr _ IH|s o t log s' Hr _ IH]; intros Hinv Ho Hn Hsl Hbk Hu Hb.
  - repeat match goal with |- _ /\ _ => split end; try assumption. lia.
  - apply Forall_cons in Ho as [Ho1 Ho2]. apply Forall_cons in Hn as [Hn1 Hn2]. apply Forall_cons in Hsl as [Hsl1 Hsl2].
    destruct (leave_step K L p x c s s1 evs a HL Hinv Ho1 Hr Hn1 Hbk Hu Hb) as [H1 H2].
    destruct (IH (inv_call K x c s s1 evs Hinv Ho1 Hr) Ho2 Hn2 Hsl2
                (backed_step K L p x c s s1 evs HL Hp Hinv Ho1 Hr (unslashed_not_wiped _ _ Hsl1) Hbk)
                (unslashed_step K p x c s s1 evs Hp Hinv Ho1 Hr Hsl1 Hu) H2) as [I1 I2].
    split; [|exact I2]. cbn [events flat_map]. rewrite list_total_app. unfold events in I1. lia.
  - apply Forall_cons in Ho as [_ Ho2]. apply Forall_cons in Hn as [_ Hn2]. apply Forall_cons in Hsl as [_ Hsl2].
    exact (IH Hinv Ho2 Hn2 Hsl2 Hbk Hu Hb).
  - apply Forall_cons in Ho as [Ho1 Ho2]. apply Forall_cons in Hn as [_ Hn2]. apply Forall_cons in Hsl as [_ Hsl2].
    destruct (token_op_inv K s o t Hinv Ho1 Hr) as [Hal Hi].
    destruct (IH (inv_prove K s t Hinv Hal) Ho2 Hn2 Hsl2) as [I1 I2].
    + apply (backed_same L p s); [reflexivity..|exact Hbk].
    + apply (unslashed_same p s); [reflexivity..|exact Hu].
    + exact Hb.
    + split; [|exact I2]. cbn [events flat_map app].
      match type of I1 with escrow_worth K ?t1 a <= _ => assert (H1 : escrow_worth K s a <= escrow_worth K t1 a) end.
      { apply escrow_price; [|reflexivity]. unfold i_price, i_assets at 2. sk_simpl.
        apply (price_more _ _ (i_assets K (sk_bank s))); [apply price_refl|exact Hi]. }
      unfold events in I1. lia.
Qed.

(** The request itself loses nothing: what was quoted for the stake and for the claims before is now in the claims. *)
Lemma request_kept K p x s s1 evs v w :
  stk_inv K s -> outside K (kx_sender x) -> unslashed p s -> unslashed p s1 -> bound_to s (kx_sender x) = p -> 
  k_request_unstake K x (stake_of (sk_bank s) (kx_sender x)) s = Ok (s1, evs) ->
  staked K (kx_sender x) s = Ok v -> unstake_pending K (kx_sender x) s = Ok w ->
  v + w <= escrow_worth K s1 (kx_sender x) /\ bound_to s1 (kx_sender x) = p.
Proof.
  intros Hinv Ho Hu Hu1 Hb H Hv Hw. set (a := kx_sender x) in *.
  assert (Hby : by_outsider K (KAccepted x (KRequestUnstake (stake_of (sk_bank s) a)) evs s1)) by (split; [exact Ho|exact I]).
  destruct (price_step K x (KRequestUnstake (stake_of (sk_bank s) a)) s s1 evs Hinv Hby H) as [Hip _].
  pose proof (request_exact K x _ s s1 evs Hinv H) as Hr. cbv zeta in Hr. fold a in Hr.
  destruct Hr as (i & f & _ & _ & _ & Hi & _ & Hcl & _ & _ & _ & _ & _ & Hbd & _).
  pose proof (unstake_pending_value K s a w Hinv Hw) as ->. rewrite (escrow_pending K p s a Hu (or_intror Hb)).
  pose proof (staked_value K s a v Hinv Hv) as Hvv.
  split; [|rewrite Hbd; exact Hb].
  unfold escrow_worth at 2. rewrite Hcl, list_total_app, list_total_cons, list_total_nil. cbn [uc_escrow].
  assert (H1 : v <= iprove_worth K s1 i) by (rewrite Hvv, Hi; apply worth_price; [exact Hip|lia]).
  assert (H2 : escrow_worth K s a <= list_total (fun c => iprove_worth K s1 (uc_escrow c)) (claims_of s a)).
  { apply total_mono. intros c. apply worth_price; [exact Hip|lia]. }
  lia.
Qed.

Lemma leave K log s x s1 evs log' s2 v w :
  stk_run K log s -> outside K (kx_sender x) ->
  staking_run K x (KRequestUnstake (stake_of (sk_bank s) (kx_sender x))) s = Ok (s1, evs) ->
  stk_history K s1 log' s2 -> Forall (by_outsider K) log' -> Forall (no_request_by (kx_sender x)) log' ->
  Forall (no_slash_of (bound_to s (kx_sender x))) (log ++ log') ->
  staked K (kx_sender x) s = Ok v -> unstake_pending K (kx_sender x) s = Ok w ->
  v + w <= claims_paid (kx_sender x) log' + pending_worth K s2 (kx_sender x).
Proof.
  intros Hrun Ho H Hh Ho' Hn Hsl Hv Hw. set (a := kx_sender x) in *. set (p := bound_to s a) in *.
  apply Forall_app in Hsl as [Hsl Hsl']. pose proof (inv_run K log s Hrun) as Hinv.
  destruct multiple_exists as [L HL]. cbn [staking_run] in H.
  assert (Hp : p <> 0) by (apply request_unstake_ok in H; cbv zeta in H; apply H).
  assert (Hby : by_outsider K (KAccepted x (KRequestUnstake (stake_of (sk_bank s) a)) evs s1)) by (split; [exact Ho|exact I]).
  assert (Hbk : backed L p s).
  { apply (backed_run K L p log s HL Hp Hrun). eapply Forall_impl; [exact Hsl|apply unslashed_not_wiped]. }
  pose proof (unslashed_run K p log s Hp Hrun Hsl) as Hu.
  pose proof (unslashed_step K p x (KRequestUnstake (stake_of (sk_bank s) a)) s s1 evs Hp Hinv Hby H I Hu) as Hu1.
  destruct (request_kept K p x s s1 evs v w Hinv Ho Hu Hu1 eq_refl H Hv Hw) as [H1 H2]. fold a in H1, H2.
  destruct (leave_history K L p s1 log' s2 a HL Hp Hh (inv_call K x _ s s1 evs Hinv Hby H) Ho' Hn Hsl'
     (backed_step K L p x _ s s1 evs HL Hp Hinv Hby H I Hbk) Hu1 (or_intror H2)) as (I1 & I2 & _ & _ & I3).
  rewrite (escrow_pending K p s2 a I3 I2). lia.
Qed.
