(** Without a wipe-out, claims are backed by the escrow. *)
From Verif Require Export StakingValue.
From Coq Require Import Lia ZifyBool ZifyN ZifyNat.
Open Scope N_scope.

(** ** Sums over the claims on a prover *)

Definition claim_sum (w : unstake_claim -> N) (bound : gmap N N) (claims : gmap N (list unstake_claim)) (p : N) : N :=
  map_total (fun a l => if default 0 (bound !! a) =? p then list_total w l else 0) claims.

Lemma claim_sum_bind w bound claims a q p :
  default [] (claims !! a) = [] -> claim_sum w (<[a := q]> bound) claims p = claim_sum w bound claims p.
Proof.
  intros H0. apply map_total_ext. intros k v Hv. destruct (decide (k = a)) as [->|].
  - rewrite Hv in H0. cbn [default from_option id] in H0. subst v. rewrite list_total_nil. now destruct (_ =? _), (_ =? _).
  - now rewrite lookup_insert_ne by congruence.
Qed.

Lemma claim_sum_set w bound claims a l p :
  claim_sum w bound (<[a := l]> claims) p
    + (if default 0 (bound !! a) =? p then list_total w (default [] (claims !! a)) else 0)
  = claim_sum w bound claims p + (if default 0 (bound !! a) =? p then list_total w l else 0).
Proof.
  unfold claim_sum.
  pose proof (map_total_insert (fun a l => if default 0 (bound !! a) =? p then list_total w l else 0) claims a l) as H.
  unfold old_value in H. cbn beta in H.
  destruct (claims !! a); cbn [default from_option id]; rewrite ?list_total_nil; destruct (_ =? _); lia.
Qed.

Lemma claim_sum_zero w bound claims p :
  (forall a, default 0 (bound !! a) = p -> default [] (claims !! a) = []) -> claim_sum w bound claims p = 0.
Proof.
  intros H. apply map_total_zero. intros a l Hl. destruct (N.eqb_spec (default 0 (bound !! a)) p) as [E|]; [|reflexivity].
  specialize (H a E). rewrite Hl in H. cbn [default from_option id] in H. subst. reflexivity.
Qed.

Lemma claim_sum_ge w bound claims a :
  list_total w (default [] (claims !! a)) <= claim_sum w bound claims (default 0 (bound !! a)).
Proof.
  unfold claim_sum.
  pose proof (old_le_total (fun b l => if default 0 (bound !! b) =? default 0 (bound !! a) then list_total w l else 0) claims a) as H.
  unfold old_value in H. rewrite N.eqb_refl in H. destruct (claims !! a); cbn [default from_option id] in *; rewrite ?list_total_nil; lia.
Qed.

Lemma total_ge {X} (w : X -> N) l x : x ∈ l -> w x <= list_total w l.
Proof. induction 1 as [|y z l _ IH]; rewrite list_total_cons; lia. Qed.

(** ** A common multiple of all slash factors *)

Lemma common_multiple n : exists L, 0 < L /\ forall f, 0 < f -> f <= n -> exists m, 0 < m /\ L = f * m.
Proof.
  induction n as [|n IH] using N.peano_ind.
  - exists 1. split; [lia|]. intros f H0 H1. lia.
  - destruct IH as (L & HL & IH). exists (N.succ n * L). split; [nia|]. intros f H0 H1.
    destruct (N.eq_dec f (N.succ n)) as [->|Hne]; [exists L; auto|].
    destruct (IH f H0 ltac:(lia)) as (m & Hm & ->). exists (N.succ n * m). split; nia.
Qed.

Definition weight (L : N) (c : unstake_claim) : N := uc_escrow c * (L / uc_factor c).

Definition multiple_ok (L : N) : Prop :=
  0 < L /\ forall f, 0 < f -> f <= slash_scalar -> exists m, 0 < m /\ L = f * m.

Lemma multiple_exists : exists L, multiple_ok L.
Proof. destruct (common_multiple slash_scalar) as (L & H). exists L. exact H. Qed.

Lemma weight_value L F c :
  multiple_ok L -> 0 < uc_factor c -> uc_factor c <= slash_scalar ->
  claim_value F c * L <= F * weight L c.
Proof.
  intros [_ HL] H0 H1. destruct (HL _ H0 H1) as (m & _ & E). unfold weight, claim_value. rewrite E.
  replace (uc_factor c * m) with (m * uc_factor c) by lia. rewrite N.div_mul by lia.
  pose proof (N.mul_div_le (uc_escrow c * F) (uc_factor c) ltac:(lia)) as Hd. nia.
Qed.

Lemma weight_same L c :
  multiple_ok L -> 0 < uc_factor c -> uc_factor c <= slash_scalar ->
  uc_factor c * weight L c = uc_escrow c * L.
Proof.
  intros [_ HL] H0 H1. destruct (HL _ H0 H1) as (m & _ & E). unfold weight. rewrite E.
  replace (uc_factor c * m) with (m * uc_factor c) by lia. rewrite N.div_mul by lia. lia.
Qed.

Lemma weight_zero L c :
  multiple_ok L -> 0 < uc_factor c -> uc_factor c <= slash_scalar -> weight L c = 0 -> uc_escrow c = 0.
Proof.
  intros HL H0 H1 E. pose proof (weight_same L c HL H0 H1) as H. destruct HL as [HL _]. nia.
Qed.

(** ** The invariant *)

Record backed (L : N) (p : N) (s : staking) : Prop := {
  bk_backed : ep_factor (pool_of s p) * claim_sum (weight L) (sk_bound s) (sk_claims s) p <= ep_escrow (pool_of s p) * L;
  bk_fresh : ep_factor (pool_of s p) = 0 -> forall a, bound_to s a = p -> claims_of s a = [];
  bk_factor : forall a c, bound_to s a = p -> c ∈ claims_of s a ->
    uc_escrow c = 0 \/ ep_factor (pool_of s p) <= uc_factor c
}.

Lemma backed_same L p s s' :
  sk_claims s' = sk_claims s -> sk_pools s' = sk_pools s -> sk_bound s' = sk_bound s -> backed L p s -> backed L p s'.
Proof.
  intros H1 H2 H3 [B1 B2 B3]. split; unfold pool_of, bound_to, claims_of in *; rewrite ?H1, ?H2, ?H3; assumption.
Qed.

(** Paying claims keeps the others backed, and each is paid its value. *)
Lemma pay_run_backed K L a p done pool b evs pool' b' :
  pay_run K a p done pool b evs pool' b' -> multiple_ok L ->
  (forall c, c ∈ done -> 0 < uc_factor c /\ uc_factor c <= slash_scalar) ->
  forall R, ep_factor pool * (list_total (weight L) done + R) <= ep_escrow pool * L ->
  ep_factor pool' * R <= ep_escrow pool' * L /\
  Forall2 (fun c ev => exists prove, ev = EvUnstake a p prove (claim_value (ep_factor pool) c)) done evs.
Proof.
  intros Hrun HL. induction Hrun as [pool b|c rest pool b pool1 b1 prove ev evs pool' b' Hf _ IH]; intros Hc R HR.
  - rewrite list_total_nil in HR. split; [exact HR|constructor].
  - destruct (Hc c ltac:(left)) as [Hc1 Hc2]. apply finish_request_ok in Hf as (_ & -> & He & Hfac & _).
    pose proof (weight_value L (ep_factor pool) c HL Hc1 Hc2) as Hw. rewrite list_total_cons in HR.
    assert (Hmin : N.min (claim_value (ep_factor pool) c) (ep_escrow pool) = claim_value (ep_factor pool) c).
    { apply N.min_l. destruct HL as [HL _]. nia. }
    rewrite Hmin in *. rewrite Hfac in IH.
    destruct (IH ltac:(intros c' Hc'; apply Hc; right; exact Hc') R) as [I1 I2].
    + rewrite He, N.mul_sub_distr_r. apply N.le_add_le_sub_r. nia.
    + split; [exact I1|]. constructor; [exists prove; reflexivity|exact I2].
Qed.

Lemma slash_ratio F W E L T amount rem f :
  T <> 0 -> amount + rem = T -> F * W <= E * L ->
  f = F * (rem * slash_scalar / T) / slash_scalar ->
  f * W <= (E - amount * E / T) * L.
Proof.
  intros HT Hsum Hb ->. pose proof scalar_pos as Hs. set (S := slash_scalar) in *. clearbody S.
  set (r := rem * S / T). pose proof (N.mul_div_le (rem * S) T HT) as H1. fold r in H1.
  set (f := F * r / S). pose proof (N.mul_div_le (F * r) S Hs) as H2. fold f in H2.
  set (d := amount * E / T). pose proof (N.mul_div_le (amount * E) T HT) as H3. fold d in H3.
  clearbody r f d.
  assert (Hf : f * T <= F * rem).
  { apply (N.mul_le_mono_pos_r _ _ S); [lia|]. transitivity (F * (T * r)); [nia|]. transitivity (F * (rem * S)); [nia|lia]. }
  assert (Hd : E * rem <= (E - d) * T).
  { rewrite N.mul_sub_distr_r. apply N.le_add_le_sub_r. nia. }
  apply (N.mul_le_mono_pos_r _ _ T); [lia|].
  transitivity (F * rem * W); [nia|]. transitivity (E * L * rem); [nia|]. nia.
Qed.

Lemma backed_step K L p x c s s' evs :
  multiple_ok L -> p <> 0 -> stk_inv K s -> by_outsider K (KAccepted x c evs s') -> staking_run K x c s = Ok (s', evs) ->
  not_wiped p (KAccepted x c evs s') -> backed L p s -> backed L p s'.
Proof.
  intros HL Hp0 Hinv Ho H Hw Hbk. pose proof Hbk as [B1 B2 B3].
  assert (Hstake : forall a q n t, stake_for K a q n (sk_set_bank (bk_set_prove t (sk_bank s)) s) = Ok (s', evs) -> backed L p s').
  { intros a q n t Hs.
    pose proof (stake_frame _ _ _ _ _ _ _ Hs) as (F1 & F2 & _ & F3 & F4 & _).
    change (sk_claims s' = sk_claims s) in F1. change (sk_pools s' = sk_pools s) in F2.
    change (bound_to s a = 0 \/ bound_to s a = q) in F4.
    assert (F5 : forall y, bound_to s' y = if y =? a then q else bound_to s y) by exact F3. clear F3.
    assert (F6 : forall y, claims_of s' y = claims_of s y) by (intros y; unfold claims_of; now rewrite F1).
    assert (F7 : forall y, claims_of s y <> [] -> bound_to s' y = bound_to s y).
    { intros y Hy. rewrite F5. destruct (N.eqb_spec y a) as [->|]; [|reflexivity].
      destruct F4 as [F4|F4]; [|congruence]. destruct (ki_unbound K s Hinv a F4). congruence. }
    split.
    - unfold pool_of. rewrite F1, F2. fold (pool_of s p). etransitivity; [|exact B1]. apply N.mul_le_mono_l.
      apply N.eq_le_incl. apply map_total_ext. intros y l Hl.
      destruct l as [|c0 l0] eqn:El; [rewrite list_total_nil; now destruct (_ =? _), (_ =? _)|].
      assert (Hne : claims_of s y <> []) by (unfold claims_of; rewrite Hl; discriminate).
      specialize (F7 y Hne). unfold bound_to in F7. rewrite F7. reflexivity.
    - unfold pool_of. rewrite F2. fold (pool_of s p). intros E y Hy. rewrite F6.
      destruct (claims_of s y) as [|c0 l0] eqn:El; [reflexivity|].
      rewrite F7 in Hy by (rewrite El; discriminate). rewrite <- El. exact (B2 E y Hy).
    - intros y c0 Hy Hin. rewrite F6 in Hin. unfold pool_of. rewrite F2. fold (pool_of s p).
      rewrite F7 in Hy by (intros E; rewrite E in Hin; inversion Hin). exact (B3 y c0 Hy Hin). }
  destruct c;
    try (match type of H with staking_run _ _ ?c _ = _ => destruct (quiet_ok K x c s s' evs I H) as (Q0 & Q1 & Q2 & _ & _) end;
         exact (backed_same L p s s' Q0 Q1 Q2 Hbk)).
  - destruct (stake_call_frame K x (KStake p0 amount) s s' evs Hinv Ho I H) as (y & q & n & t & _ & _ & _ & _ & Hs).
    exact (Hstake y q n t Hs).
  - destruct (stake_call_frame K x (KPermitAndStake p0 from amount) s s' evs Hinv Ho I H) as (y & q & n & t & _ & _ & _ & _ & Hs).
    exact (Hstake y q n t Hs).
  - apply request_unstake_ok in H. cbv zeta in H. set (a := kx_sender x) in *. set (q := bound_to s a) in *.
    destruct H as (_ & Hq & _ & _ & _ & b2 & e & _ & -> & _).
    set (factor := if ep_factor (pool_of s q) =? 0 then slash_scalar else ep_factor (pool_of s q)).
    assert (Hfac : 0 < factor /\ factor <= slash_scalar).
    { unfold factor. pose proof (ki_pool K s Hinv q). pose proof scalar_pos.
      destruct (N.eqb_spec (ep_factor (pool_of s q)) 0); lia. }
    set (nc := UnstakeClaim e factor (kx_time x)).
    assert (Hnc : factor * weight L nc = e * L) by (apply (weight_same L nc HL); apply Hfac).
    pose proof (claim_sum_set (weight L) (sk_bound s) (sk_claims s) a (claims_of s a ++ [nc]) p) as Hsum.
    change (default 0 (sk_bound s !! a)) with q in Hsum. change (default [] (sk_claims s !! a)) with (claims_of s a) in Hsum.
    rewrite list_total_app, list_total_cons, list_total_nil in Hsum.
    split.
    + rewrite pool_claims, pool_set, pool_bank. sk_simpl.
      destruct (N.eqb_spec p q) as [E|E].
      * rewrite <- E in *. rewrite N.eqb_refl in Hsum. sk_simpl.
        set (W := claim_sum (weight L) (sk_bound s) (sk_claims s) p) in *.
        set (W' := claim_sum (weight L) (sk_bound s) (<[a:=claims_of s a ++ [nc]]> (sk_claims s)) p) in *.
        assert (HW' : W' = W + weight L nc) by lia. rewrite HW'.
        assert (HW : factor * W <= ep_escrow (pool_of s p) * L).
        { unfold factor. rewrite <- E. destruct (N.eqb_spec (ep_factor (pool_of s p)) 0) as [E0|]; [|exact B1].
          replace W with 0; [lia|]. symmetry. apply claim_sum_zero. exact (B2 E0). }
        nia.
      * destruct (N.eqb_spec q p); [congruence|]. etransitivity; [|exact B1]. apply N.mul_le_mono_l. lia.
    + rewrite pool_claims, pool_set, pool_bank. intros E0 y Hy.
      change (bound_to s y = p) in Hy. destruct (N.eqb_spec p q) as [E|E]; [sk_simpl; lia|].
      rewrite claims_set. destruct (N.eqb_spec y a) as [Ey|]; [rewrite Ey in Hy; fold q in Hy; congruence|].
      exact (B2 E0 y Hy).
    + intros y c0 Hy. change (bound_to s y = p) in Hy.
      rewrite claims_set, pool_claims, pool_set, pool_bank. sk_simpl.
      change (claims_of (sk_set_pool q (EscrowPool (ep_escrow (pool_of s q) + e) factor) (sk_set_bank b2 s)) y) with (claims_of s y).
      destruct (N.eqb_spec y a) as [Ey|Ey].
      * rewrite Ey in Hy. fold q in Hy. destruct (N.eqb_spec p q); [|congruence]. sk_simpl.
        rewrite elem_of_app, elem_of_list_singleton. intros [Hin| ->]; [|right; unfold nc; sk_simpl; lia].
        destruct (B3 a c0 Hy Hin) as [Hz|Hle]; [left; exact Hz|].
        unfold factor. rewrite Hy. destruct (N.eqb_spec (ep_factor (pool_of s p)) 0) as [E0|]; [|right; exact Hle].
        rewrite (B2 E0 a Hy) in Hin. inversion Hin.
      * intros Hin. destruct (B3 y c0 Hy Hin) as [Hz|Hle]; [left; exact Hz|].
        destruct (N.eqb_spec p q) as [E|E]; [|right; exact Hle]. sk_simpl. unfold factor. rewrite <- E.
        destruct (N.eqb_spec (ep_factor (pool_of s p)) 0) as [E0|]; [|right; exact Hle].
        rewrite (B2 E0 y Hy) in Hin. inversion Hin.
  - apply finish_unstake_ok in H. cbv zeta in H. set (q := bound_to s staker) in *.
    destruct H as (Hq & Hne & _ & done & left & pool & b & Hrun & _ & _ & Hperm & ->).
    set (pool' := if (ep_escrow pool =? 0) && negb (ep_factor pool =? slash_scalar)
                  then EscrowPool (ep_escrow pool) slash_scalar else pool).
    set (s1 := sk_set_claims staker left (sk_set_pool q pool' (sk_set_bank b s))).
    assert (Hb1 : backed L p s1).
    { pose proof (claim_sum_set (weight L) (sk_bound s) (sk_claims s) staker left p) as Hsum.
      change (default 0 (sk_bound s !! staker)) with q in Hsum. change (default [] (sk_claims s !! staker)) with (claims_of s staker) in Hsum.
      rewrite (list_total_perm _ _ _ Hperm), list_total_app in Hsum.
      assert (Hin : forall c, c ∈ left -> c ∈ claims_of s staker) by (intros c Hc; rewrite Hperm; apply elem_of_app; auto).
      destruct (N.eq_dec p q) as [E|E].
      - assert (Hfz : ep_factor (pool_of s p) <> 0).
        { intros E0. apply Hne. apply (B2 E0). symmetry. exact E. }
        rewrite <- E in *. rewrite N.eqb_refl in Hsum.
        set (W := claim_sum (weight L) (sk_bound s) (sk_claims s) p) in *.
        set (W' := claim_sum (weight L) (sk_bound s) (<[staker:=left]> (sk_claims s)) p) in *.
        pose proof (list_total_perm (weight L) _ _ Hperm) as Hge. rewrite list_total_app in Hge.
        pose proof (claim_sum_ge (weight L) (sk_bound s) (sk_claims s) staker) as Hge2.
        change (default 0 (sk_bound s !! staker)) with q in Hge2. rewrite <- E in Hge2. fold W in Hge2.
        change (default [] (sk_claims s !! staker)) with (claims_of s staker) in Hge2.
        assert (HW : W = list_total (weight L) done + W') by lia. rewrite HW in B1.
        assert (Hfac : ep_factor pool = ep_factor (pool_of s p)).
        { apply pay_run_ok in Hrun. cbv zeta in Hrun. apply Hrun. }
        destruct (pay_run_backed K L staker p done (pool_of s p) (sk_bank s) evs pool b Hrun HL) with (R := W') as [Hpaid _].
        { intros c Hc. assert (Hc' : c ∈ claims_of s staker) by (rewrite Hperm; apply elem_of_app; auto).
          destruct (ki_claims K s Hinv staker c Hc') as [[? ?] _]. auto. }
        { exact B1. }
        assert (Hp1 : pool_of s1 p = pool') by (unfold s1; rewrite pool_claims, pool_set, <- E, N.eqb_refl; reflexivity).
        split.
        + rewrite Hp1. unfold s1. sk_simpl. fold W'.
          unfold pool'. destruct (N.eqb_spec (ep_escrow pool) 0) as [E0|]; cbn [andb]; [|exact Hpaid].
          destruct (negb (ep_factor pool =? slash_scalar)); [|exact Hpaid]. sk_simpl.
          assert (W' = 0) as -> by (rewrite E0 in Hpaid; rewrite Hfac in Hpaid; nia). lia.
        + rewrite Hp1. intros E0. exfalso. unfold pool' in E0.
          pose proof scalar_pos. revert E0. destruct ((ep_escrow pool =? 0) && negb (ep_factor pool =? slash_scalar)); intros E0.
          * cbn [ep_factor] in E0. congruence.
          * apply Hfz. rewrite <- Hfac. exact E0.
        + intros y c Hy Hc. change (bound_to s y = p) in Hy. rewrite Hp1. unfold s1 in Hc.
          rewrite claims_set in Hc.
          change (claims_of (sk_set_pool q pool' (sk_set_bank b s)) y) with (claims_of s y) in Hc.
          assert (Hc' : c ∈ claims_of s y) by (destruct (N.eqb_spec y staker) as [->|]; [apply Hin|]; exact Hc).
          unfold pool'. destruct (N.eqb_spec (ep_escrow pool) 0) as [E0|]; cbn [andb];
            [|rewrite Hfac; exact (B3 y c Hy Hc')].
          destruct (negb (ep_factor pool =? slash_scalar)); [|rewrite Hfac; exact (B3 y c Hy Hc')].
          left. destruct (ki_claims K s Hinv y c Hc') as [[? ?] _].
          apply (weight_zero L c HL); [assumption|assumption|].
          assert (HW0 : W' = 0) by (rewrite E0 in Hpaid; rewrite Hfac in Hpaid; nia).
          pose proof (claim_sum_ge (weight L) (sk_bound s) (<[staker:=left]> (sk_claims s)) y) as G.
          change (default 0 (sk_bound s !! y)) with (bound_to s y) in G. rewrite Hy in G. fold W' in G. rewrite HW0 in G.
          assert (Hcl : default [] (<[staker:=left]> (sk_claims s) !! y) = if y =? staker then left else claims_of s y).
          { destruct (N.eqb_spec y staker) as [->|]; [now rewrite lookup_insert|now rewrite lookup_insert_ne by congruence]. }
          rewrite Hcl in G. pose proof (total_ge (weight L) _ c Hc). lia.
      - assert (Hpo : pool_of s1 p = pool_of s p).
        { unfold s1. rewrite pool_claims, pool_set. destruct (N.eqb_spec p q); [congruence|reflexivity]. }
        assert (Hcl : forall y, bound_to s y = p -> claims_of s1 y = claims_of s y).
        { intros y Hy. unfold s1. rewrite claims_set. destruct (N.eqb_spec y staker) as [Ey|]; [|reflexivity].
          rewrite Ey in Hy. fold q in Hy. congruence. }
        split; rewrite Hpo.
        + unfold s1. sk_simpl. etransitivity; [|exact B1]. apply N.mul_le_mono_l.
          destruct (N.eqb_spec q p); [congruence|]. lia.
        + intros E0 y Hy. change (bound_to s y = p) in Hy. rewrite (Hcl y Hy). exact (B2 E0 y Hy).
        + intros y c Hy Hc. change (bound_to s y = p) in Hy. rewrite (Hcl y Hy) in Hc. exact (B3 y c Hy Hc). }
    destruct ((stake_of b staker =? 0) && (length left =? 0)%nat) eqn:Hz; [|exact Hb1].
    apply andb_true_iff in Hz as [_ Hz]. apply Nat.eqb_eq in Hz. destruct left; [|discriminate].
    assert (Hcl : claims_of s1 staker = []) by (unfold s1; rewrite claims_set; now rewrite N.eqb_refl).
    destruct Hb1 as [C1 C2 C3]. split.
    + sk_simpl. rewrite claim_sum_bind by exact Hcl. exact C1.
    + intros E0 y. rewrite bound_set. destruct (y =? staker); [congruence|]. exact (C2 E0 y).
    + intros y c. rewrite bound_set. destruct (y =? staker); [congruence|]. exact (C3 y c).
  - apply finish_slash_ok in H. cbv zeta in H. destruct H as (c & d & burned & _ & _ & _ & _ & _ & H).
    cbn [not_wiped] in Hw.
    destruct H as [[_ ->]|(b1 & b2 & f & Ha & _ & _ & Hf & ->)]; [apply (backed_same L p s); [reflexivity..|exact Hbk]|].
    set (total := v_assets p0 (sk_bank s) + ep_escrow (pool_of s p0)) in *.
    set (amount := N.min (sc_amount c) total) in *.
    match goal with |- backed L p ?s2 => set (s2' := s2) in * end.
    assert (Hpo : pool_of s2' p = if p =? p0 then EscrowPool (ep_escrow (pool_of s p0) - amount * ep_escrow (pool_of s p0) / total) f else pool_of s p).
    { unfold s2'. match goal with |- pool_of (sk_set_registry ?r ?s3) p = _ => change (pool_of s3 p = if p =? p0 then EscrowPool (ep_escrow (pool_of s p0) - amount * ep_escrow (pool_of s p0) / total) f else pool_of s p) end.
      rewrite pool_set. destruct (p =? p0); reflexivity. }
    destruct (N.eqb_spec p p0) as [E|E].
    + rewrite <- E in *. specialize (Hw eq_refl). rewrite Hpo in Hw. sk_simpl.
      apply slashed_factor_ok in Hf as [[_ Hf]|[_ Hf]]; [congruence|].
      split.
      * rewrite Hpo. sk_simpl. change (sk_bound s2') with (sk_bound s). change (sk_claims s2') with (sk_claims s).
        refine (slash_ratio _ _ (ep_escrow (pool_of s p)) L total amount (total - amount) f _ _ _ Hf); [lia|lia|].
        destruct (N.eqb_spec (ep_factor (pool_of s p)) 0) as [E0|]; [|exact B1].
        rewrite (claim_sum_zero _ _ _ _ (B2 E0)). lia.
      * rewrite Hpo. sk_simpl. intros E0. congruence.
      * intros y c0 Hy Hc. change (bound_to s y = p) in Hy. change (c0 ∈ claims_of s y) in Hc.
        rewrite Hpo. sk_simpl. destruct (B3 y c0 Hy Hc) as [Hz|Hle]; [left; exact Hz|]. right.
        destruct (N.eqb_spec (ep_factor (pool_of s p)) 0) as [E0|E0].
        -- rewrite (B2 E0 y Hy) in Hc. inversion Hc.
        -- rewrite Hf. etransitivity; [apply slashed_factor_le; lia|exact Hle].
    + split; rewrite Hpo; [exact B1|exact B2|exact B3].
Qed.

Lemma backed_history K L p s log s' :
  multiple_ok L -> p <> 0 -> stk_history K s log s' -> stk_inv K s -> Forall (by_outsider K) log ->
  Forall (not_wiped p) log -> backed L p s -> backed L p s'.
Proof.
  intros HL Hp. induction 1 as [s|s x c s1 evs log s' Hr _ IH|s x c e log s' Hr _ IH|s o t log s' Hr _ IH]; intros Hinv Ho Hw Hb.
  - exact Hb.
  - apply Forall_cons in Ho as [Ho1 Ho2]. apply Forall_cons in Hw as [Hw1 Hw2].
    exact (IH (inv_call K x c s s1 evs Hinv Ho1 Hr) Ho2 Hw2 (backed_step K L p x c s s1 evs HL Hp Hinv Ho1 Hr Hw1 Hb)).
  - apply Forall_cons in Ho as [_ Ho2]. apply Forall_cons in Hw as [_ Hw2]. exact (IH Hinv Ho2 Hw2 Hb).
  - apply Forall_cons in Ho as [Ho1 Ho2]. apply Forall_cons in Hw as [_ Hw2].
    apply (IH (inv_prove K s t Hinv (proj1 (token_op_inv K s o t Hinv Ho1 Hr))) Ho2 Hw2).
    apply (backed_same L p s); [reflexivity..|exact Hb].
Qed.

Lemma backed_run K L p log s :
  multiple_ok L -> p <> 0 -> stk_run K log s -> Forall (not_wiped p) log -> backed L p s.
Proof.
  intros HL Hp [HK (prove & owner & governor & pa & dispenser & s0 & Ha & Hi & Hh) Ho] Hw.
  apply (backed_history K L p s0 log s HL Hp Hh (initial_inv K prove owner governor pa dispenser s0 HK Ha Hi) Ho Hw).
  destruct (initial_claims _ _ _ _ _ _ _ Hi) as (E1 & E2 & _ & _). split.
  - rewrite E1. unfold claim_sum, map_total. rewrite map_fold_empty. lia.
  - intros _ a _. unfold claims_of. now rewrite E1.
  - intros a c _ Hc. unfold claims_of in Hc. rewrite E1 in Hc. inversion Hc.
Qed.

(** All claims together are worth no more than the escrow, and none is worth more than it put in. *)
Lemma map_total_le {V} (f g : N -> V -> N) (m : gmap N V) :
  (forall k v, m !! k = Some v -> f k v <= g k v) -> map_total f m <= map_total g m.
Proof.
  unfold map_total. intros H.
  induction m as [|k v m Hk IH] using map_ind; [rewrite !map_fold_empty; lia|].
  pose proof (map_total_fresh f m k v Hk) as E1. pose proof (map_total_fresh g m k v Hk) as E2. unfold map_total in E1, E2.
  rewrite E1, E2. specialize (H k v (lookup_insert m k v)) as H0.
  assert (map_fold (fun k v acc => f k v + acc) 0 m <= map_fold (fun k v acc => g k v + acc) 0 m).
  { apply IH. intros j w Hj. apply H. rewrite lookup_insert_ne; [exact Hj|]. intros ->. congruence. }
  lia.
Qed.

Lemma map_total_scale {V} (f : N -> V -> N) (m : gmap N V) n : map_total (fun k v => f k v * n) m = map_total f m * n.
Proof.
  induction m as [|k v m Hk IH] using map_ind; [unfold map_total; rewrite !map_fold_empty; lia|].
  rewrite (map_total_fresh (fun k v => f k v * n) m k v Hk), (map_total_fresh f m k v Hk), IH. lia.
Qed.

Lemma list_total_scale {X} (f : X -> N) l n : list_total (fun x => f x * n) l = list_total f l * n.
Proof. induction l as [|x l IH]; [reflexivity|]. rewrite !list_total_cons, IH. lia. Qed.

Lemma backed_value K L p s : multiple_ok L -> stk_inv K s -> backed L p s -> all_claims_value s p <= ep_escrow (pool_of s p).
Proof.
  intros HL Hinv [B1 _ _]. destruct (HL) as [HL0 _]. apply (N.mul_le_mono_pos_r _ _ L HL0). etransitivity; [|exact B1].
  unfold all_claims_value, claim_sum. rewrite <- map_total_scale.
  replace (ep_factor (pool_of s p) * map_total (fun a l => if default 0 (sk_bound s !! a) =? p then list_total (weight L) l else 0) (sk_claims s))
    with (map_total (fun a l => (if default 0 (sk_bound s !! a) =? p then list_total (weight L) l else 0) * ep_factor (pool_of s p)) (sk_claims s))
    by (rewrite map_total_scale; lia).
  apply map_total_le. intros a l Hl. change (default 0 (sk_bound s !! a)) with (bound_to s a).
  destruct (bound_to s a =? p); [|lia]. rewrite <- !list_total_scale. apply list_total_le. intros c Hc.
  destruct (ki_claims K s Hinv a c) as [[? ?] _]; [unfold claims_of; rewrite Hl; exact Hc|].
  pose proof (weight_value L (ep_factor (pool_of s p)) c HL). lia.
Qed.

Lemma value_le_escrow K L p s a c :
  stk_inv K s -> backed L p s -> bound_to s a = p -> c ∈ claims_of s a ->
  claim_value (ep_factor (pool_of s p)) c <= uc_escrow c.
Proof.
  intros Hinv [_ _ B3] Hb Hc. destruct (ki_claims K s Hinv a c Hc) as [[? ?] _]. unfold claim_value.
  destruct (B3 a c Hb Hc) as [-> |Hle]; [rewrite N.mul_0_l, N.div_0_l by lia; lia|].
  apply N.div_le_upper_bound; [lia|]. nia.
Qed.

(** ** No slash, no loss *)

Record unslashed (p : N) (s : staking) : Prop := {
  un_pool : ep_factor (pool_of s p) = 0 \/ ep_factor (pool_of s p) = slash_scalar;
  un_none : ep_factor (pool_of s p) = 0 -> forall a, bound_to s a = p -> claims_of s a = [];
  un_claims : forall a c, bound_to s a = p -> c ∈ claims_of s a -> uc_factor c = slash_scalar
}.

Lemma unslashed_same p s s' :
  sk_claims s' = sk_claims s -> sk_pools s' = sk_pools s -> sk_bound s' = sk_bound s -> unslashed p s -> unslashed p s'.
Proof.
  intros H1 H2 H3 [B1 B2 B3]. split; unfold pool_of, bound_to, claims_of in *; rewrite ?H1, ?H2, ?H3; assumption.
Qed.

Lemma unslashed_step K p x c s s' evs :
  p <> 0 -> stk_inv K s -> by_outsider K (KAccepted x c evs s') -> staking_run K x c s = Ok (s', evs) ->
  no_slash_of p (KAccepted x c evs s') -> unslashed p s -> unslashed p s'.
Proof.
  intros Hp0 Hinv Ho H Hn Hun. pose proof Hun as [B1 B2 B3].
  assert (Hstake : forall a q n t, stake_for K a q n (sk_set_bank (bk_set_prove t (sk_bank s)) s) = Ok (s', evs) -> unslashed p s').
  { intros a q n t Hs.
    pose proof (stake_frame _ _ _ _ _ _ _ Hs) as (F1 & F2 & _ & F3 & F4 & _).
    change (sk_claims s' = sk_claims s) in F1. change (sk_pools s' = sk_pools s) in F2.
    change (bound_to s a = 0 \/ bound_to s a = q) in F4.
    assert (F5 : forall y, bound_to s' y = if y =? a then q else bound_to s y) by exact F3. clear F3.
    assert (F6 : forall y, claims_of s' y = claims_of s y) by (intros y; unfold claims_of; now rewrite F1).
    assert (F7 : forall y, claims_of s y <> [] -> bound_to s' y = bound_to s y).
    { intros y Hy. rewrite F5. destruct (N.eqb_spec y a) as [->|]; [|reflexivity].
      destruct F4 as [F4|F4]; [|congruence]. destruct (ki_unbound K s Hinv a F4). congruence. }
    split.
    - unfold pool_of. rewrite F2. exact B1.
    - unfold pool_of. rewrite F2. fold (pool_of s p). intros E y Hy. rewrite F6.
      destruct (claims_of s y) as [|c0 l0] eqn:El; [reflexivity|].
      rewrite F7 in Hy by (rewrite El; discriminate). rewrite <- El. exact (B2 E y Hy).
    - intros y c0 Hy Hin. rewrite F6 in Hin.
      rewrite F7 in Hy by (intros E; rewrite E in Hin; inversion Hin). exact (B3 y c0 Hy Hin). }
  destruct c;
    try (match type of H with staking_run _ _ ?c _ = _ => destruct (quiet_ok K x c s s' evs I H) as (Q0 & Q1 & Q2 & _ & _) end;
         exact (unslashed_same p s s' Q0 Q1 Q2 Hun)).
  - destruct (stake_call_frame K x (KStake p0 amount) s s' evs Hinv Ho I H) as (y & q & n & t & _ & _ & _ & _ & Hs).
    exact (Hstake y q n t Hs).
  - destruct (stake_call_frame K x (KPermitAndStake p0 from amount) s s' evs Hinv Ho I H) as (y & q & n & t & _ & _ & _ & _ & Hs).
    exact (Hstake y q n t Hs).
  - apply request_unstake_ok in H. cbv zeta in H. set (a := kx_sender x) in *. set (q := bound_to s a) in *.
    destruct H as (_ & Hq & _ & _ & _ & b2 & e & _ & -> & _).
    set (factor := if ep_factor (pool_of s q) =? 0 then slash_scalar else ep_factor (pool_of s q)).
    assert (Hfac : p = q -> factor = slash_scalar).
    { intros E. unfold factor. rewrite <- E. destruct (N.eqb_spec (ep_factor (pool_of s p)) 0); [reflexivity|]. tauto. }
    pose proof scalar_pos as Hs0. split.
    + rewrite pool_claims, pool_set, pool_bank. destruct (N.eqb_spec p q) as [E|E]; [right; exact (Hfac E)|exact B1].
    + rewrite pool_claims, pool_set, pool_bank. intros E0 y Hy. change (bound_to s y = p) in Hy.
      destruct (N.eqb_spec p q) as [E|E]; [sk_simpl; rewrite (Hfac E) in E0; congruence|].
      rewrite claims_set. destruct (N.eqb_spec y a) as [Ey|]; [rewrite Ey in Hy; fold q in Hy; congruence|].
      exact (B2 E0 y Hy).
    + intros y c0 Hy. change (bound_to s y = p) in Hy. rewrite claims_set.
      destruct (N.eqb_spec y a) as [Ey|Ey]; [|exact (B3 y c0 Hy)].
      rewrite elem_of_app, elem_of_list_singleton. intros [Hin| ->].
      * rewrite <- Ey in Hin. exact (B3 y c0 Hy Hin).
      * sk_simpl. apply Hfac. rewrite Ey in Hy. fold q in Hy. congruence.
  - apply finish_unstake_ok in H. cbv zeta in H. set (q := bound_to s staker) in *.
    destruct H as (Hq & Hne & _ & done & left & pool & b & Hrun & _ & _ & Hperm & ->).
    assert (Hfac : ep_factor pool = ep_factor (pool_of s q)).
    { apply pay_run_ok in Hrun. cbv zeta in Hrun. apply Hrun. }
    set (pool' := if (ep_escrow pool =? 0) && negb (ep_factor pool =? slash_scalar)
                  then EscrowPool (ep_escrow pool) slash_scalar else pool).
    set (s1 := sk_set_claims staker left (sk_set_pool q pool' (sk_set_bank b s))).
    assert (Hb1 : unslashed p s1).
    { assert (Hpf : p = q -> ep_factor pool' = slash_scalar).
      { intros E. unfold pool'.
        destruct ((ep_escrow pool =? 0) && negb (ep_factor pool =? slash_scalar)); [reflexivity|]. rewrite Hfac, <- E.
        destruct B1 as [E0|E0]; [|exact E0]. destruct Hne. apply (B2 E0). symmetry. exact E. }
      pose proof scalar_pos as Hs0. split.
      - unfold s1. rewrite pool_claims, pool_set. destruct (N.eqb_spec p q) as [E|E]; [right; exact (Hpf E)|exact B1].
      - unfold s1. rewrite pool_claims, pool_set. intros E0 y Hy. change (bound_to s y = p) in Hy.
        destruct (N.eqb_spec p q) as [E|E]; [rewrite (Hpf E) in E0; congruence|].
        rewrite claims_set. destruct (N.eqb_spec y staker) as [Ey|]; [rewrite Ey in Hy; fold q in Hy; congruence|].
        exact (B2 E0 y Hy).
      - intros y c Hy Hc. change (bound_to s y = p) in Hy. unfold s1 in Hc. rewrite claims_set in Hc.
        destruct (N.eqb_spec y staker) as [Ey|]; [|exact (B3 y c Hy Hc)].
        apply (B3 y c Hy). rewrite Ey, Hperm. apply elem_of_app. auto. }
    destruct ((stake_of b staker =? 0) && (length left =? 0)%nat); [|exact Hb1].
    destruct Hb1 as [C1 C2 C3]. split.
    + exact C1.
    + intros E0 y. rewrite bound_set. destruct (y =? staker); [congruence|]. exact (C2 E0 y).
    + intros y c. rewrite bound_set. destruct (y =? staker); [congruence|]. exact (C3 y c).
  - cbn [no_slash_of] in Hn. apply finish_slash_ok in H. cbv zeta in H. destruct H as (c & d & burned & _ & _ & _ & _ & _ & H).
    destruct H as [[_ ->]|(b1 & b2 & f & Ha & _ & _ & Hf & ->)]; [apply (unslashed_same p s); [reflexivity..|exact Hun]|].
    match goal with |- unslashed p ?s2 => set (s2' := s2) in * end.
    assert (Hpo : pool_of s2' p = pool_of s p).
    { unfold s2'. match goal with |- pool_of (sk_set_registry ?r ?s3) p = _ => change (pool_of s3 p = pool_of s p) end.
      rewrite pool_set. destruct (N.eqb_spec p p0); [congruence|reflexivity]. }
    split; rewrite ?Hpo; assumption.
Qed.

Lemma unslashed_history K p s log s' :
  p <> 0 -> stk_history K s log s' -> stk_inv K s -> Forall (by_outsider K) log ->
  Forall (no_slash_of p) log -> unslashed p s -> unslashed p s'.
Proof.
  intros Hp. induction 1 as [s|s x c s1 evs log s' Hr _ IH|s x c e log s' Hr _ IH|s o t log s' Hr _ IH]; intros Hinv Ho Hw Hb.
  - exact Hb.
  - apply Forall_cons in Ho as [Ho1 Ho2]. apply Forall_cons in Hw as [Hw1 Hw2].
    exact (IH (inv_call K x c s s1 evs Hinv Ho1 Hr) Ho2 Hw2 (unslashed_step K p x c s s1 evs Hp Hinv Ho1 Hr Hw1 Hb)).
  - apply Forall_cons in Ho as [_ Ho2]. apply Forall_cons in Hw as [_ Hw2]. exact (IH Hinv Ho2 Hw2 Hb).
  - apply Forall_cons in Ho as [Ho1 Ho2]. apply Forall_cons in Hw as [_ Hw2].
    apply (IH (inv_prove K s t Hinv (proj1 (token_op_inv K s o t Hinv Ho1 Hr))) Ho2 Hw2).
    apply (unslashed_same p s); [reflexivity..|exact Hb].
Qed.

Lemma unslashed_run K p log s :
  p <> 0 -> stk_run K log s -> Forall (no_slash_of p) log -> unslashed p s.
Proof.
  intros Hp [HK (prove & owner & governor & pa & dispenser & s0 & Ha & Hi & Hh) Ho] Hw.
  apply (unslashed_history K p s0 log s Hp Hh (initial_inv K prove owner governor pa dispenser s0 HK Ha Hi) Ho Hw).
  destruct (initial_claims _ _ _ _ _ _ _ Hi) as (E1 & E2 & _ & _). split.
  - left. unfold pool_of. now rewrite E2.
  - intros _ a _. unfold claims_of. now rewrite E1.
  - intros a c _ Hc. unfold claims_of in Hc. rewrite E1 in Hc. inversion Hc.
Qed.

Lemma unslashed_value p s a c :
  unslashed p s -> bound_to s a = p -> c ∈ claims_of s a -> claim_value (ep_factor (pool_of s p)) c = uc_escrow c.
Proof.
  intros [B1 B2 B3] Hb Hc. unfold claim_value. rewrite (B3 a c Hb Hc).
  destruct B1 as [E|E]; [rewrite (B2 E a Hb) in Hc; inversion Hc|]. rewrite E. apply N.div_mul. apply scalar_pos.
Qed.
