(** Proofs of the properties in [Props_Shares.v]. *)
From Verif Require Export SharesSpec StakingRights ToyStaking.
From Coq Require Import Lia ZifyBool ZifyN ZifyNat.
Open Scope N_scope.

(** ** Who may move $iPROVE *)

Lemma guard_bystander K y a from to : bystander K y a -> i_guard K a from to y = false.
Proof.
  intros ([H1 _] & H2 & H3). unfold i_guard, is_prover.
  rewrite (proj2 (N.eqb_neq _ _) H1), (proj2 (N.eqb_neq _ _) H2), (bool_decide_eq_false_2 _ H3). reflexivity.
Qed.

Lemma i_move_bystander K y a from to n y' : bystander K y a -> i_move K a from to n y <> Ok y'.
Proof. intros Hb H. unfold i_move in H. rewrite (guard_bystander K y a from to Hb) in H. sk_inv. discriminate. Qed.
Lemma i_create_bystander K y a to n y' : bystander K y a -> i_create K a to n y <> Ok y'.
Proof. intros Hb H. unfold i_create in H. rewrite (guard_bystander K y a 0 to Hb) in H. sk_inv. discriminate. Qed.
Lemma i_destroy_bystander K y a from n y' : bystander K y a -> i_destroy K a from n y <> Ok y'.
Proof. intros Hb H. unfold i_destroy in H. rewrite (guard_bystander K y a from 0 Hb) in H. sk_inv. discriminate. Qed.

Lemma i_spend_staking K o sp n y y' : i_spend K o sp n y = Ok y' -> sy_staking y' = sy_staking y.
Proof. unfold i_spend. destruct (_ =? _); intros H; sk_inv; subst; reflexivity. Qed.
Lemma p_spend_staking K p o sp n y y' : p_spend K p o sp n y = Ok y' -> sy_staking y' = sy_staking y.
Proof. unfold p_spend. destruct (_ =? _); intros H; sk_inv; subst; reflexivity. Qed.
Lemma bystander_eq K y y' a : sy_staking y' = sy_staking y -> bystander K y a -> bystander K y' a.
Proof. unfold bystander. now intros ->. Qed.

(** An entry of the allowances set. *)
Lemma approve_in_ok m o sp n m' : approve_in m o sp n = Ok m' ->
  sp <> 0 /\ forall o' sp', default 0 (m' !! (o', sp')) = if (o' =? o) && (sp' =? sp) then n else default 0 (m !! (o', sp')).
Proof.
  unfold approve_in. intros H. sk_inv. subst. split; [lia|]. intros o' sp'. destruct (N.eqb_spec o' o) as [E1|E1]; cbn [andb].
  - subst. destruct (N.eqb_spec sp' sp) as [E2|E2].
    + subst. now rewrite lookup_insert.
    + rewrite lookup_insert_ne by congruence. reflexivity.
  - rewrite lookup_insert_ne by congruence. reflexivity.
Qed.

Definition same_token (t t' : share_token) : bool :=
  match t, t' with
  | ShIprove, ShIprove | ShStprove, ShStprove => true
  | ShProver p, ShProver q => p =? q
  | _, _ => false
  end.

Lemma C69_only_allowances_proof K y a t c y' :
  forall (Hcaller : bystander K y a) (Haccepted : share_run K a t c y = Ok y'),
  sy_staking y' = sy_staking y /\
  exists owner spender n,
    (c = ShApprove spender n /\ owner = a \/ t = ShIprove /\ c = ShPermit owner spender n true) /\
    granted y' t owner spender = n /\
    (forall t' o sp, (t', o, sp) <> (t, owner, spender) -> granted y' t' o sp = granted y t' o sp).
Proof.
  intros Hb H. destruct t as [|p|]; cbn [share_run] in H.
  - destruct c as [to n|from to n|spender n|owner spender n valid|assets receiver|shares receiver|assets receiver owner|shares receiver owner|from n|from n];
      cbn [iprove_call] in H.
    + exfalso. exact (i_move_bystander K y a _ _ _ _ Hb H).
    + exfalso. sk_inv. pose proof (i_spend_staking _ _ _ _ _ _ H0) as Hs.
      exact (i_move_bystander K x a _ _ _ _ (bystander_eq K y x a Hs Hb) H).
    + sk_inv. subst. apply approve_in_ok in H0 as [_ Hm]. split; [reflexivity|].
      exists a, spender, n. split; [left; auto|]. split.
      * cbn [granted sy_iallowed]. rewrite Hm, !N.eqb_refl. reflexivity.
      * intros t' o sp Hne. destruct t'; try reflexivity. cbn [granted sy_iallowed]. rewrite Hm.
        destruct (N.eqb_spec o a), (N.eqb_spec sp spender); try reflexivity. congruence.
    + sk_inv. subst. apply approve_in_ok in H1 as [_ Hm]. split; [reflexivity|].
      exists owner, spender, n. split; [right; auto|]. split.
      * cbn [granted sy_iallowed]. rewrite Hm, !N.eqb_refl. reflexivity.
      * intros t' o sp Hne. destruct t'; try reflexivity. cbn [granted sy_iallowed]. rewrite Hm.
        destruct (N.eqb_spec o owner), (N.eqb_spec sp spender); try reflexivity. congruence.
    + exfalso. unfold i_take in H. sk_inv. revert H. apply i_create_bystander. exact Hb.
    + exfalso. unfold i_take in H. sk_inv. revert H. apply i_create_bystander. exact Hb.
    + exfalso. unfold i_give in H. sk_inv.
      match goal with H : i_destroy _ _ _ _ ?z = Ok _ |- _ => revert H; apply i_destroy_bystander; apply (bystander_eq K y); [|exact Hb] end.
      match goal with H : (if a =? owner then _ else _) = Ok _ |- _ => destruct (a =? owner); [injection H as <-; reflexivity|eapply i_spend_staking; exact H] end.
    + exfalso. unfold i_give in H. sk_inv.
      match goal with H : i_destroy _ _ _ _ ?z = Ok _ |- _ => revert H; apply i_destroy_bystander; apply (bystander_eq K y); [|exact Hb] end.
      match goal with H : (if a =? owner then _ else _) = Ok _ |- _ => destruct (a =? owner); [injection H as <-; reflexivity|eapply i_spend_staking; exact H] end.
    + exfalso. sk_inv. destruct Hb as ([? _] & _). lia.
    + discriminate.
  - destruct (is_prover (sy_staking y) p); [|discriminate].
    assert (Hself : (a =? ke_self K) = false) by (apply N.eqb_neq; apply Hb).
    destruct c as [to n|from to n|spender n|owner spender n valid|assets receiver|shares receiver|assets receiver owner|shares receiver owner|from n|from n];
      cbn [prover_call] in H; try discriminate H.
    + exfalso. unfold p_move in H. rewrite Hself in H. sk_inv. discriminate.
    + exfalso. unfold p_move in H. rewrite Hself in H. sk_inv. discriminate.
    + sk_inv. subst. apply approve_in_ok in H0 as [_ Hm]. split; [reflexivity|].
      exists a, spender, n. split; [left; auto|]. split.
      * cbn [granted sy_pallowed p_set_allowances]. rewrite lookup_insert. cbn [default from_option id].
        rewrite Hm, !N.eqb_refl. reflexivity.
      * intros t' o sp Hne. destruct t' as [|q|]; try reflexivity. cbn [granted sy_pallowed p_set_allowances].
        destruct (N.eq_dec q p) as [->|Hq]; [|now rewrite lookup_insert_ne by congruence].
        rewrite lookup_insert. cbn [default from_option id]. rewrite Hm. fold (p_allowances p y).
        destruct (N.eqb_spec o a), (N.eqb_spec sp spender); try reflexivity. congruence.
    + exfalso. unfold p_take, p_create in H. rewrite Hself in H. sk_inv. discriminate.
    + exfalso. unfold p_take, p_create in H. rewrite Hself in H. sk_inv. discriminate.
    + exfalso. unfold p_give, p_destroy in H. rewrite Hself in H. sk_inv. discriminate.
    + exfalso. unfold p_give, p_destroy in H. rewrite Hself in H. sk_inv. discriminate.
    + exfalso. rewrite Hself in H. sk_inv. discriminate.
  - destruct c; cbn [stprove_call] in H; try discriminate H; try (exfalso; sk_inv; discriminate).
    sk_inv. subst. apply approve_in_ok in H0 as [_ Hm]. split; [reflexivity|].
    exists a, spender, n. split; [left; auto|]. split.
    + cbn [granted sy_stallowed]. rewrite Hm, !N.eqb_refl. reflexivity.
    + intros t' o sp Hne. destruct t'; try reflexivity. cbn [granted sy_stallowed]. rewrite Hm.
      destruct (N.eqb_spec o a), (N.eqb_spec sp spender); try reflexivity. congruence.
Qed.

(** ** Histories *)

Lemma system_run_ok K x c y y1 evs : system_run K x c y = Ok (y1, evs) ->
  staking_run K x c (sy_staking y) = Ok (sy_staking y1, evs) /\ sy_pallowed y1 = sy_pallowed y /\ sy_stallowed y1 = sy_stallowed y.
Proof. unfold system_run. intros H. sk_inv. subst. auto. Qed.
Lemma system_run_err K x c y e : system_run K x c y = Err e -> staking_run K x c (sy_staking y) = Err e.
Proof. unfold system_run. destruct (staking_run K x c (sy_staking y)) as [[s evs]|e']; cbn [sk_bind]; congruence. Qed.

Lemma sys_history_part K y log y' : sys_history K y log y' ->
  stk_history K (sy_staking y) (staking_part log) (sy_staking y').
Proof.
  intros H. induction H as [y|y x c y1 evs log y' Hr _ IH|y x c e log y' Hr _ IH|y o t log y' Hr _ IH|y a t c y1 log y' Hb _ Hr _ IH|y a t c e log y' Hb Hr _ IH];
    cbn [staking_part flat_map app].
  - constructor.
  - apply system_run_ok in Hr as (Hr & _). exact (kh_accepted K _ x c _ evs _ _ Hr IH).
  - apply system_run_err in Hr. exact (kh_reverted K _ x c e _ _ Hr IH).
  - exact (kh_token K _ o t _ _ Hr IH).
  - destruct (C69_only_allowances_proof K y a t c y1 Hb Hr) as [<- _]. exact IH.
  - exact IH.
Qed.

Lemma C69_staking_undisturbed_proof K log y :
  forall (Hrun : sys_run K log y), stk_run K (staking_part log) (sy_staking y).
Proof.
  intros [Ha (prove & o & g & pa & d & s0 & H1 & H2 & H3) Ho]. constructor; [exact Ha| |exact Ho].
  exists prove, o, g, pa, d, s0. split; [exact H1|]. split; [exact H2|]. exact (sys_history_part K _ log y H3).
Qed.

(** ** The unlimited allowance of provers *)

Definition provers_allowed (K : staking_env) (y : system) : Prop :=
  forall p, p ∈ rg_provers (sk_registry (sy_staking y)) -> granted y ShIprove (ke_self K) p = u256_max.

Lemma insert_max (m : gmap (N * N) N) k : default 0 (<[k := u256_max]> m !! k) = u256_max.
Proof. now rewrite lookup_insert. Qed.

Lemma system_run_allowed K x c y y1 evs :
  system_run K x c y = Ok (y1, evs) -> provers_allowed K y -> provers_allowed K y1.
Proof.
  intros H Hp p Hin. unfold system_run in H. sk_inv. subst.
  cbn [sy_staking] in *. cbn [granted sy_iallowed].
  pose proof (registry_changes K x c (sy_staking y) s evs H0) as Hr.
  destruct c; try (destruct Hr as [Hr|[(q & Hr & _)|(q & b & Hc & _)]]; [..|discriminate Hc]; rewrite Hr in Hin; exact (Hp p Hin)).
  clear Hr. cbn [staking_run] in H0. unfold k_create_prover in H0. cbv zeta in H0. sk_inv. subst.
  cbn [sk_set_registry sk_registry rg_provers rg_count] in *.
  match goal with |- context [<[(ke_self K, ?q) := u256_max]> _] => destruct (N.eq_dec p q) as [->|Hne] end.
  - apply insert_max.
  - rewrite lookup_insert_ne by congruence. apply Hp. set_solver.
Qed.

Lemma share_run_allowed K a t c y y1 :
  bystander K y a -> signed_outside K c -> share_run K a t c y = Ok y1 -> provers_allowed K y -> provers_allowed K y1.
Proof.
  intros Hb Hs H Hp p Hin. destruct (C69_only_allowances_proof K y a t c y1 Hb H) as [E (o & sp & n & Hc & _ & Hg)].
  rewrite E in Hin. rewrite Hg; [exact (Hp p Hin)|]. intros He. injection He as <- <- <-.
  destruct Hc as [[_ He]|[_ ->]].
  - destruct Hb as ([? _] & _). congruence.
  - destruct Hs as [? _]. congruence.
Qed.

Lemma history_allowed K y log y' : sys_history K y log y' -> provers_allowed K y -> provers_allowed K y'.
Proof.
  intros H. induction H as [y|y x c y1 evs log y' Hr _ IH|y x c e log y' Hr _ IH|y o t log y' Hr _ IH|y a t c y1 log y' Hb Hs Hr _ IH|y a t c e log y' Hb Hr _ IH];
    intros Hp; auto.
  - apply IH. exact (system_run_allowed K x c y y1 evs Hr Hp).
  - apply IH. exact (share_run_allowed K a t c y y1 Hb Hs Hr Hp).
Qed.

Lemma initial_provers K prove o g pa d s0 : staking_initialize K prove o g pa d = Some s0 -> rg_provers (sk_registry s0) = ∅.
Proof. unfold staking_initialize. destruct (forallb _ _); [|discriminate]. intros H. injection H as <-. reflexivity. Qed.

Lemma run_allowed K log y : sys_run K log y -> provers_allowed K y.
Proof.
  intros [Ha (prove & o & g & pa & d & s0 & _ & H2 & H3) _]. apply (history_allowed K _ log y H3).
  intros p Hp. cbn [sy_staking] in Hp. rewrite (initial_provers K _ _ _ _ _ _ H2) in Hp. now apply elem_of_empty in Hp.
Qed.

(** ** The staking contract's own calls *)

Lemma guard_self K y from to : i_guard K (ke_self K) from to y = true.
Proof. unfold i_guard. rewrite N.eqb_refl. reflexivity. Qed.

Lemma nonzero a : a <> 0 -> negb (a =? 0) = true.
Proof. intros H. apply negb_true_iff, N.eqb_neq. exact H. Qed.

Lemma self_deposit K y n : ke_self K <> 0 ->
  share_run K (ke_self K) ShIprove (ShDeposit n (ke_self K)) y = lifted y (i_deposit K (ke_self K) (ke_self K) n (sy_bank y)).
Proof.
  intros Hs. cbn [share_run iprove_call]. unfold i_take, i_deposit, i_create, i_mint, lifted.
  destruct (i_preview_deposit K n (sy_bank y)) as [sh|e]; cbn [sk_bind]; [|reflexivity].
  destruct (tk_transfer_from _ _ _ _ _) as [t|e]; cbn [sk_token sk_bind]; [|reflexivity].
  rewrite (nonzero _ Hs), guard_self. cbn [sk_require sk_bind].
  cbn [sy_bank sy_set_bank sy_staking sk_set_bank sk_bank].
  destruct (_ <=? max_votes_supply); reflexivity.
Qed.

Lemma self_redeem K y n receiver : ke_self K <> 0 ->
  share_run K (ke_self K) ShIprove (ShRedeem n receiver (ke_self K)) y = lifted y (i_redeem K n receiver (ke_self K) (sy_bank y)).
Proof.
  intros Hs. cbn [share_run iprove_call]. unfold i_give, i_redeem, i_destroy, i_burn, lifted.
  destruct (n <=? _); cbn [sk_require sk_bind]; [|reflexivity].
  destruct (i_preview_redeem K n (sy_bank y)) as [assets|e]; cbn [sk_bind]; [|reflexivity].
  rewrite N.eqb_refl. cbn [sk_bind]. rewrite (nonzero _ Hs), guard_self. cbn [sk_require sk_bind].
  destruct (tk_burn _ _ _) as [t|e]; cbn [sk_token sk_bind]; [|reflexivity].
  cbn [sy_bank sy_set_bank sy_staking sk_set_bank sk_bank].
  destruct (tk_transfer _ _ _ _) as [t1|e]; reflexivity.
Qed.

Lemma self_burn K y from n :
  share_run K (ke_self K) ShIprove (ShBurn from n) y = lifted y (i_slash K from n (sy_bank y)).
Proof.
  cbn [share_run iprove_call]. rewrite N.eqb_refl. cbn [sk_require sk_bind].
  destruct (i_slash K from n (sy_bank y)) as [[b m]|e]; reflexivity.
Qed.

Lemma prover_deposit K y p n : ke_self K <> 0 -> p <> 0 -> p <> ke_self K -> is_prover (sy_staking y) p = true ->
  granted y ShIprove (ke_self K) p = u256_max ->
  share_run K (ke_self K) (ShProver p) (ShDeposit n (ke_self K)) y = lifted y (v_deposit K p n (sy_bank y)).
Proof.
  intros Hs Hp Hps Hin Hg. cbn [share_run]. rewrite Hin. cbn [prover_call]. unfold p_take, v_deposit, lifted.
  destruct (sk_add (shares_of (sy_bank y) p) 1) as [supply1|e]; cbn [sk_bind]; [|reflexivity].
  destruct (mul_div n supply1 _) as [sh|e]; cbn [sk_bind]; [|reflexivity].
  cbn [iprove_call]. unfold i_spend. rewrite (proj2 (N.eqb_neq _ _) Hps). unfold spend_in, allowance_in.
  cbn [granted] in Hg. rewrite Hg, N.eqb_refl. cbn [sk_bind]. unfold i_move.
  rewrite (nonzero _ Hs), (nonzero _ Hp). cbn [andb sk_require sk_bind].
  assert (i_guard K p (ke_self K) p {| sy_staking := sy_staking y; sy_iallowed := sy_iallowed y; sy_pallowed := sy_pallowed y; sy_stallowed := sy_stallowed y |} = true) as ->.
  { unfold i_guard. cbn [sy_staking]. rewrite Hin, N.eqb_refl. cbn [andb orb]. now rewrite orb_true_r. }
  cbn [sk_require sk_bind]. change (sy_bank {| sy_staking := sy_staking y; sy_iallowed := sy_iallowed y; sy_pallowed := sy_pallowed y; sy_stallowed := sy_stallowed y |}) with (sy_bank y).
  destruct (tk_transfer (bk_iprove (sy_bank y)) (ke_self K) p n) as [t|e]; cbn [sk_token sk_bind]; [|reflexivity].
  unfold p_create. rewrite (nonzero _ Hs), N.eqb_refl. cbn [sk_require sk_bind].
  match goal with |- context [shares_of (sy_bank ?z) p] =>
    lazymatch z with y => fail | _ => change (shares_of (sy_bank z) p) with (shares_of (sy_bank y) p) end end.
  destruct (sk_add (shares_of (sy_bank y) p) sh) as [supply|e]; reflexivity.
Qed.

Lemma prover_redeem K y p n : ke_self K <> 0 -> p <> 0 -> is_prover (sy_staking y) p = true ->
  share_run K (ke_self K) (ShProver p) (ShRedeem n (ke_self K) (ke_self K)) y = lifted y (v_redeem K p n (sy_bank y)).
Proof.
  intros Hs Hp Hin. cbn [share_run]. rewrite Hin. cbn [prover_call]. unfold p_give, v_redeem, lifted, p_destroy, p_balance.
  rewrite !N.eqb_refl. destruct (n <=? shares_of (sy_bank y) p) eqn:Hn; cbn [sk_require sk_bind]; [|reflexivity].
  destruct (v_preview_redeem p n (sy_bank y)) as [assets|e]; cbn [sk_bind]; [|reflexivity].
  rewrite (nonzero _ Hs). cbn [sk_require sk_bind]. rewrite Hn. cbn [sk_require sk_bind]. cbn [iprove_call]. unfold i_move.
  rewrite (nonzero _ Hs), (nonzero _ Hp). cbn [andb sk_require sk_bind].
  match goal with |- context [i_guard K p p (ke_self K) ?z] => assert (i_guard K p p (ke_self K) z = true) as -> end.
  { unfold i_guard. change (is_prover (sy_staking (sy_set_bank (bk_set_share p (shares_of (sy_bank y) p - n) (sy_bank y)) y)) p) with (is_prover (sy_staking y) p).
    rewrite Hin, N.eqb_refl, orb_true_r. cbn [andb orb]. now rewrite orb_true_r. }
  cbn [sk_require sk_bind]. cbn [sy_bank sy_set_bank sy_staking sk_set_bank sk_bank bk_set_share bk_iprove bk_isupply].
  destruct (tk_transfer _ _ _ _) as [t|e]; reflexivity.
Qed.

Lemma C69_vaults_serve_staking_proof K log y p :
  forall (Hrun : sys_run K log y) (Hprover : p ∈ rg_provers (sk_registry (sy_staking y))),
  (forall n, share_run K (ke_self K) ShIprove (ShDeposit n (ke_self K)) y
     = lifted y (i_deposit K (ke_self K) (ke_self K) n (sy_bank y))) /\
  (forall n receiver, share_run K (ke_self K) ShIprove (ShRedeem n receiver (ke_self K)) y
     = lifted y (i_redeem K n receiver (ke_self K) (sy_bank y))) /\
  (forall from n, share_run K (ke_self K) ShIprove (ShBurn from n) y = lifted y (i_slash K from n (sy_bank y))) /\
  (forall n, share_run K (ke_self K) (ShProver p) (ShDeposit n (ke_self K)) y = lifted y (v_deposit K p n (sy_bank y))) /\
  (forall n, share_run K (ke_self K) (ShProver p) (ShRedeem n (ke_self K) (ke_self K)) y
     = lifted y (v_redeem K p n (sy_bank y))).
Proof.
  intros Hr Hp. pose proof (syr_addresses K log y Hr) as HK. pose proof (sao_self K HK) as Hs.
  pose proof (inv_run K _ _ (C69_staking_undisturbed_proof K log y Hr)) as Hinv.
  destruct (ki_provers K _ Hinv p Hp) as (Hp0 & Hps & _).
  assert (Hin : is_prover (sy_staking y) p = true) by now apply bool_decide_eq_true.
  repeat match goal with |- _ /\ _ => split end.
  - intros n. exact (self_deposit K y n Hs).
  - intros n receiver. exact (self_redeem K y n receiver Hs).
  - intros from n. exact (self_burn K y from n).
  - intros n. exact (prover_deposit K y p n Hs Hp0 Hps Hin (run_allowed K log y Hr p Hp)).
  - intros n. exact (prover_redeem K y p n Hs Hp0 Hin).
Qed.

(** ** The settlement contract's deposits *)

Lemma C69_reward_is_deposit_proof K log y p n y' :
  forall (Hrun : sys_run K log y) (Hvapp : ke_vapp K ∉ rg_provers (sk_registry (sy_staking y))),
  share_run K (ke_vapp K) ShIprove (ShDeposit n p) y = Ok y' <->
  exists x evs, system_run K x (KReward p n) y = Ok (y', evs).
Proof.
  intros Hr Hv. pose proof (syr_addresses K log y Hr) as HK. destruct (sao_vapp K HK) as [Hvs _].
  pose proof (inv_run K _ _ (C69_staking_undisturbed_proof K log y Hr)) as Hinv.
  assert (Hg : forall z, sk_registry (sy_staking z) = sk_registry (sy_staking y) -> i_guard K (ke_vapp K) 0 p z = is_prover (sy_staking y) p).
  { intros z Hz. unfold i_guard, is_prover. rewrite Hz, (proj2 (N.eqb_neq _ _) Hvs), (bool_decide_eq_false_2 _ Hv), !N.eqb_refl. reflexivity. }
  cbn [share_run iprove_call]. unfold i_take, i_create, system_run. cbn [staking_run]. unfold k_reward, i_deposit, i_mint. split.
  - intros H. sk_inv. rewrite Hg in * by reflexivity.
    match goal with H : is_prover _ _ = true |- _ => rewrite H end. cbn [sk_require sk_bind].
    subst.
    exists (StakingCtx 0 0 0 0 false false), [].
    match goal with H : i_preview_deposit _ _ _ = Ok _ |- _ => unfold sy_bank in H; rewrite H end. cbn [sk_bind].
    match goal with H : tk_transfer_from _ _ _ _ _ = Ok _ |- _ => unfold sy_bank in H; rewrite H end. cbn [sk_token sk_bind].
    match goal with H : (p =? 0) = false |- _ => rewrite H end. cbn [negb sk_require sk_bind].
    match goal with H : (_ <=? max_votes_supply) = true |- _ =>
      unfold sy_bank in H; cbn [sy_set_bank sy_staking sk_set_bank sk_bank] in H; rewrite H end.
    reflexivity.
  - intros (x & evs & H). sk_inv. subst.
    match goal with H : i_preview_deposit _ _ _ = Ok _ |- _ => unfold sy_bank; rewrite H end. cbn [sk_bind].
    match goal with H : tk_transfer_from _ _ _ _ _ = Ok _ |- _ => rewrite H end. cbn [sk_token sk_bind].
    match goal with H : (p =? 0) = false |- _ => rewrite H end. cbn [negb sk_require sk_bind].
    rewrite Hg by reflexivity. match goal with H : is_prover _ _ = true |- _ => rewrite H end. cbn [sk_require sk_bind].
    cbn [sy_set_bank sy_staking sk_set_bank sk_bank].
    match goal with H : (_ <=? max_votes_supply) = true |- _ => rewrite H end. reflexivity.
Qed.

(** ** A concrete run *)

Inductive sys_step : Type := YCall (s : stk_step) | YShare (a : N) (t : share_token) (c : share_call).

Definition bystanderb (K : staking_env) (y : system) (a : N) : bool :=
  outsideb K a && negb (a =? ke_vapp K) && negb (bool_decide (a ∈ rg_provers (sk_registry (sy_staking y)))).
Lemma bystanderb_ok K y a : bystanderb K y a = true -> bystander K y a.
Proof.
  unfold bystanderb, bystander. rewrite !andb_true_iff, !negb_true_iff, N.eqb_neq, bool_decide_eq_false.
  intros [[H1 H2] H3]. split; [now apply outsideb_ok|auto].
Qed.
Definition signed_outsideb (K : staking_env) (c : share_call) : bool :=
  match c with ShPermit owner _ _ _ => outsideb K owner | _ => true end.
Lemma signed_outsideb_ok K c : signed_outsideb K c = true -> signed_outside K c.
Proof. destruct c; try (intros; exact I). apply outsideb_ok. Qed.

Fixpoint sys_exec (K : staking_env) (l : list sys_step) (y : system) : list sys_entry * system :=
  match l with
  | [] => ([], y)
  | YCall (SCall x c) :: rest =>
      match system_run K x c y with
      | Ok (y1, evs) => let (log, y') := sys_exec K rest y1 in (YStaking (KAccepted x c evs (sy_staking y1)) :: log, y')
      | Err e => let (log, y') := sys_exec K rest y in (YStaking (KReverted x c e) :: log, y')
      end
  | YCall (SToken o) :: rest =>
      match run_token_op (bk_prove (sy_bank y)) o with
      | Ok t => let (log, y') := sys_exec K rest (sy_set_bank (bk_set_prove t (sy_bank y)) y) in (YStaking (KTokenOp o) :: log, y')
      | Err _ => sys_exec K rest y
      end
  | YShare a t c :: rest =>
      if bystanderb K y a && signed_outsideb K c then
        match share_run K a t c y with
        | Ok y1 => let (log, y') := sys_exec K rest y1 in (YShares a t c true :: log, y')
        | Err e => let (log, y') := sys_exec K rest y in (YShares a t c false :: log, y')
        end
      else sys_exec K rest y
  end.

Lemma sys_exec_ok K l : forall y log y', sys_exec K l y = (log, y') -> sys_history K y log y'.
Proof.
  induction l as [|[[x c|o]|a t c] rest IH]; cbn [sys_exec]; intros y log y' H.
  - apply pair_equal_spec in H as [<- <-]. constructor.
  - destruct (system_run K x c y) as [[y1 evs]|e] eqn:Hr.
    + destruct (sys_exec K rest y1) as [log1 y2] eqn:He. apply pair_equal_spec in H as [<- <-].
      exact (yh_accepted K y x c y1 evs log1 y2 Hr (IH _ _ _ He)).
    + destruct (sys_exec K rest y) as [log1 y2] eqn:He. apply pair_equal_spec in H as [<- <-].
      exact (yh_reverted K y x c e log1 y2 Hr (IH _ _ _ He)).
  - destruct (run_token_op (bk_prove (sy_bank y)) o) as [t|e] eqn:Ht; [|exact (IH _ _ _ H)].
    destruct (sys_exec K rest _) as [log1 y2] eqn:He. apply pair_equal_spec in H as [<- <-].
    exact (yh_token K y o t log1 y2 Ht (IH _ _ _ He)).
  - destruct (bystanderb K y a && signed_outsideb K c) eqn:Hb; [|exact (IH _ _ _ H)].
    apply andb_true_iff in Hb as [Hb Hs]. apply bystanderb_ok in Hb. apply signed_outsideb_ok in Hs.
    destruct (share_run K a t c y) as [y1|e] eqn:Hr.
    + destruct (sys_exec K rest y1) as [log1 y2] eqn:He. apply pair_equal_spec in H as [<- <-].
      exact (yh_shares K y a t c y1 log1 y2 Hb Hs Hr (IH _ _ _ He)).
    + destruct (sys_exec K rest y) as [log1 y2] eqn:He. apply pair_equal_spec in H as [<- <-].
      exact (yh_shares_reverted K y a t c e log1 y2 Hb Hr (IH _ _ _ He)).
Qed.

(** Bob gives Carol allowances; neither of them can move anything with them, or by way of the vaults. *)
Definition toy_shares : list sys_step :=
  map YCall toy_steps1 ++
  [ YShare sk_bob ShStprove (ShApprove sk_carol 500);
    YShare sk_carol ShStprove (ShTransferFrom sk_bob sk_carol 100);
    YShare sk_bob ShIprove (ShPermit sk_bob sk_carol 30 true);
    YShare sk_carol ShIprove (ShDeposit 5 sk_carol);
    YShare sk_bob (ShProver toy_prover) (ShRedeem 0 sk_bob sk_bob);
    YShare sk_bob (ShProver toy_prover) (ShPull sk_alice 10) ].
Definition toy_sys := sys_exec toy_sk toy_shares (System toy_sk0 ∅ ∅ ∅).

Lemma toy_is_sys : sys_run toy_sk toy_sys.1 toy_sys.2.
Proof.
  constructor.
  - exact toy_sk_addresses.
  - exists toy_prove, sk_keeper, 20, 21, sk_giver, toy_sk0. split; [|split].
    + intros a. unfold tk_allowance, toy_prove. cbn [tk_allowances toy_sk ke_self ke_iprove].
      split; (destruct (_ !! _) as [n|] eqn:E; [|reflexivity]); apply elem_of_list_to_map_2 in E;
        repeat (apply elem_of_cons in E as [E|E]; [discriminate E|]); now apply elem_of_nil in E.
    + exact toy_sk_start.
    + apply (sys_exec_ok toy_sk toy_shares). apply surjective_pairing.
  - apply by_outsiderb_ok. vm_compute. reflexivity.
Qed.

Lemma C69_example_proof :
  sys_run toy_sk toy_sys.1 toy_sys.2 /\
  bystander toy_sk toy_sys.2 sk_bob /\
  drop 9 toy_sys.1 =
    [ YShares sk_bob ShStprove (ShApprove sk_carol 500) true;
      YShares sk_carol ShStprove (ShTransferFrom sk_bob sk_carol 100) false;
      YShares sk_bob ShIprove (ShPermit sk_bob sk_carol 30 true) true;
      YShares sk_carol ShIprove (ShDeposit 5 sk_carol) false;
      YShares sk_bob (ShProver toy_prover) (ShRedeem 0 sk_bob sk_bob) false;
      YShares sk_bob (ShProver toy_prover) (ShPull sk_alice 10) false ] /\
  (exists y', share_run toy_sk sk_bob ShIprove (ShApprove sk_alice 7) toy_sys.2 = Ok y') /\
  toy_prover ∈ rg_provers (sk_registry (sy_staking toy_sys.2)) /\
  ke_vapp toy_sk ∉ rg_provers (sk_registry (sy_staking toy_sys.2)) /\
  (exists y', share_run toy_sk (ke_vapp toy_sk) ShIprove (ShDeposit 100 toy_prover) toy_sys.2 = Ok y') /\
  staked toy_sk sk_bob (sy_staking toy_sys.2) = Ok 566.
Proof.
  assert (Hok : forall a t c, (match share_run toy_sk a t c toy_sys.2 with Ok _ => true | Err _ => false end) = true ->
    exists y', share_run toy_sk a t c toy_sys.2 = Ok y').
  { intros a t c. destruct (share_run toy_sk a t c toy_sys.2) as [y'|e]; [eauto|discriminate]. }
  split; [exact toy_is_sys|]. split; [apply bystanderb_ok; vm_compute; reflexivity|].
  split; [vm_compute; reflexivity|]. split; [apply Hok; vm_compute; reflexivity|].
  split; [apply (bool_decide_eq_true_1 (toy_prover ∈ rg_provers (sk_registry (sy_staking toy_sys.2)))); vm_compute; reflexivity|].
  split; [apply (bool_decide_eq_false_1 (ke_vapp toy_sk ∈ rg_provers (sk_registry (sy_staking toy_sys.2)))); vm_compute; reflexivity|].
  split; [apply Hok; vm_compute; reflexivity|vm_compute; reflexivity].
Qed.
