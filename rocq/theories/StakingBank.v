(** Facts about the tokens and vaults of the staking contract. *)
From Verif Require Export StakingSpec TokenFacts.
From Coq Require Import Lia ZifyBool ZifyN ZifyNat.
Open Scope N_scope.

(** ** Decomposing calls *)

Lemma sk_bind_ok {X Y} (m : result X staking_error) (k : X -> result Y staking_error) y :
  sk_bind m k = Ok y -> exists x, m = Ok x /\ k x = Ok y.
Proof. destruct m as [x|e]; cbn; [eauto|discriminate]. Qed.

Lemma sk_require_ok b e u : sk_require b e = Ok u -> b = true.
Proof. destruct b; [reflexivity|discriminate]. Qed.

Lemma sk_token_ok {X} (r : result X token_error) x : sk_token r = Ok x -> r = Ok x.
Proof. destruct r; cbn; congruence. Qed.

Lemma sk_add_ok a b c : sk_add a b = Ok c -> c = a + b /\ a + b < two256.
Proof. unfold sk_add. destruct (N.ltb_spec (a + b) two256); [|discriminate]. intros [= <-]. auto. Qed.

Lemma sk_sub_ok a b c : sk_sub a b = Ok c -> c = a - b /\ b <= a.
Proof. unfold sk_sub. destruct (N.leb_spec b a); [|discriminate]. intros [= <-]. auto. Qed.

Lemma sk_mul_ok a b c : sk_mul a b = Ok c -> c = a * b /\ a * b < two256.
Proof. unfold sk_mul. destruct (N.ltb_spec (a * b) two256); [|discriminate]. intros [= <-]. auto. Qed.

Lemma mul_div_ok a b d c : mul_div a b d = Ok c -> c = a * b / d /\ d <> 0 /\ c < two256.
Proof.
  unfold mul_div. destruct (N.eqb_spec d 0); [discriminate|].
  destruct (N.ltb_spec (a * b / d) two256); [|discriminate]. intros [= <-]. auto.
Qed.

Lemma mul_div_eq a b d : d <> 0 -> a * b / d < two256 -> mul_div a b d = Ok (a * b / d).
Proof.
  intros Hd Hlt. unfold mul_div. destruct (N.eqb_spec d 0); [congruence|].
  destruct (N.ltb_spec (a * b / d) two256); [reflexivity|lia].
Qed.

Lemma negb_ok b : negb b = true -> b = false.
Proof. now destruct b. Qed.

Ltac sk_inv :=
  repeat match goal with
  | H : sk_bind _ _ = Ok _ |- _ =>
      let x := fresh "x" in let H1 := fresh "H" in
      apply sk_bind_ok in H as (x & H1 & H)
  | H : sk_require _ _ = Ok _ |- _ => apply sk_require_ok in H
  | H : negb _ = true |- _ => apply negb_ok in H
  | H : sk_token _ = Ok _ |- _ => apply sk_token_ok in H
  | H : sk_add _ _ = Ok _ |- _ => apply sk_add_ok in H as [-> ?]
  | H : sk_sub _ _ = Ok _ |- _ => apply sk_sub_ok in H as [-> ?]
  | H : sk_mul _ _ = Ok _ |- _ => apply sk_mul_ok in H as [-> ?]
  | H : mul_div _ _ _ = Ok _ |- _ => apply mul_div_ok in H as (-> & ? & ?)
  | H : Ok ?a = Ok ?b |- _ => assert (a = b) by congruence; clear H
  | H : Err _ = Ok _ |- _ => discriminate
  | H : (match ?x with (_, _) => _ end) = Ok _ |- _ => destruct x; cbn beta iota in H
  | H : (_, _) = (_, _) |- _ => apply pair_equal_spec in H as [? ?]
  end.

(** ** Sums over maps *)

Lemma map_total_fresh {V} (f : N -> V -> N) m k v :
  m !! k = None -> map_total f (<[k := v]> m) = f k v + map_total f m.
Proof.
  intros H. unfold map_total. rewrite map_fold_insert_L; [reflexivity| |exact H]. intros. lia.
Qed.

Definition old_value {V} (f : N -> V -> N) (m : gmap N V) (k : N) : N :=
  match m !! k with Some v => f k v | None => 0 end.

Lemma map_total_insert {V} (f : N -> V -> N) m k v :
  map_total f (<[k := v]> m) + old_value f m k = map_total f m + f k v.
Proof.
  unfold old_value. destruct (m !! k) as [b|] eqn:Hk; cbn.
  - rewrite <- (insert_delete m k b) at 2 by exact Hk.
    rewrite <- insert_delete_insert. rewrite !map_total_fresh by apply lookup_delete. lia.
  - rewrite map_total_fresh by exact Hk. lia.
Qed.

Lemma old_le_total {V} (f : N -> V -> N) m k : old_value f m k <= map_total f m.
Proof.
  unfold old_value. destruct (m !! k) as [b|] eqn:Hk; [|lia].
  rewrite <- (insert_delete m k b) at 1 by exact Hk. rewrite map_total_fresh by apply lookup_delete. lia.
Qed.

Lemma old_two {V} (f : N -> V -> N) m j k :
  j <> k -> old_value f m j + old_value f m k <= map_total f m.
Proof.
  intros Hne. unfold old_value at 2. destruct (m !! k) as [b|] eqn:Hk.
  - rewrite <- (insert_delete m k b) at 2 by exact Hk. rewrite map_total_fresh by apply lookup_delete.
    assert (old_value f m j = old_value f (delete k m) j) as ->
      by (unfold old_value; rewrite lookup_delete_ne by congruence; reflexivity).
    pose proof (old_le_total f (delete k m) j). lia.
  - pose proof (old_le_total f m j). lia.
Qed.

Lemma map_total_ext {V} (f g : N -> V -> N) m :
  (forall k v, m !! k = Some v -> f k v = g k v) -> map_total f m = map_total g m.
Proof.
  induction m as [|k v m Hk IH] using map_ind; intros H; [reflexivity|].
  rewrite !map_total_fresh by exact Hk. rewrite (H k v) by apply lookup_insert. f_equal. apply IH.
  intros j w Hj. apply H. rewrite lookup_insert_ne; [exact Hj|]. intros ->. congruence.
Qed.

Lemma map_total_zero {V} (f : N -> V -> N) m :
  (forall k v, m !! k = Some v -> f k v = 0) -> map_total f m = 0.
Proof.
  induction m as [|k v m Hk IH] using map_ind; intros H; [reflexivity|].
  rewrite map_total_fresh by exact Hk. rewrite (H k v) by apply lookup_insert. apply IH.
  intros j w Hj. apply H. rewrite lookup_insert_ne; [exact Hj|]. intros ->. congruence.
Qed.

(** ** The sum of all balances of a token *)

Definition tk_total (t : token) : N := map_total (fun _ n => n) (tk_balances t).

Lemma old_balance t a : old_value (fun _ n => n) (tk_balances t) a = tk_balance t a.
Proof. unfold old_value, tk_balance. now destruct (tk_balances t !! a). Qed.

Lemma balance_le_total t a : tk_balance t a <= tk_total t.
Proof. rewrite <- old_balance. apply old_le_total. Qed.

Lemma mint_total t a n : tk_total (tk_mint t a n) = tk_total t + n.
Proof.
  unfold tk_total, tk_mint. cbn [tk_balances].
  pose proof (map_total_insert (fun _ n => n) (tk_balances t) a (tk_balance t a + n)) as H.
  rewrite old_balance in H. lia.
Qed.

Lemma burn_total t a n t' : tk_burn t a n = Ok t' -> tk_total t' + n = tk_total t.
Proof.
  unfold tk_burn. destruct (N.ltb_spec (tk_balance t a) n); [discriminate|]. intros [= <-].
  unfold tk_total. cbn [tk_balances].
  pose proof (map_total_insert (fun _ n => n) (tk_balances t) a (tk_balance t a - n)) as H1.
  rewrite old_balance in H1. lia.
Qed.

Lemma transfer_total t from to n t' : tk_transfer t from to n = Ok t' -> tk_total t' = tk_total t.
Proof.
  unfold tk_transfer. destruct (_ || _); [discriminate|].
  destruct (N.ltb_spec (tk_balance t from) n); [discriminate|]. intros [= <-].
  unfold tk_total. cbn [tk_balances].
  set (m := <[from := tk_balance t from - n]> (tk_balances t)).
  pose proof (map_total_insert (fun _ n => n) (tk_balances t) from (tk_balance t from - n)) as H1.
  fold m in H1. rewrite old_balance in H1.
  pose proof (map_total_insert (fun _ n => n) m to (default 0 (m !! to) + n)) as H2.
  assert (old_value (fun _ n => n) m to = default 0 (m !! to)) as Ho
    by (unfold old_value; now destruct (m !! to)). rewrite Ho in H2. lia.
Qed.

(** ** Allowances of $PROVE *)

Definition allow_ok (K : staking_env) (t : token) : Prop :=
  forall a, tk_allowance t (ke_self K) a = (if a =? ke_iprove K then u256_max else 0) /\
            tk_allowance t (ke_iprove K) a = 0.

Lemma allow_eq K t t' : tk_allowances t' = tk_allowances t -> allow_ok K t -> allow_ok K t'.
Proof. intros He H a. unfold allow_ok, tk_allowance in *. rewrite He. apply H. Qed.

Lemma approve_allow K t owner spender amount :
  outside K owner -> allow_ok K t -> allow_ok K (tk_approve t owner spender amount).
Proof.
  intros [H1 H2] H a. rewrite !allowance_approve.
  destruct (N.eqb_spec (ke_self K) owner); [congruence|].
  destruct (N.eqb_spec (ke_iprove K) owner); [congruence|]. apply H.
Qed.

Lemma spend_allow K t owner spender amount t' :
  ke_self K <> ke_iprove K ->
  allow_ok K t -> tk_spend t owner spender amount = Ok t' ->
  allow_ok K t' /\ (owner = ke_iprove K -> amount = 0) /\ (owner = ke_self K -> spender <> ke_iprove K -> amount = 0).
Proof.
  intros Hd H. unfold tk_spend. destruct (N.eqb_spec (tk_allowance t owner spender) u256_max) as [He|Hne].
  - intros [= <-]. split; [exact H|]. split.
    + intros ->. rewrite (proj2 (H spender)) in He. now apply eq_sym, u256_max_nonzero in He.
    + intros -> Hs. rewrite (proj1 (H spender)) in He.
      destruct (N.eqb_spec spender (ke_iprove K)); [congruence|]. now apply eq_sym, u256_max_nonzero in He.
  - destruct (N.ltb_spec (tk_allowance t owner spender) amount); [discriminate|]. intros [= <-].
    split; [|split].
    + intros a. rewrite !allowance_approve. destruct (H a) as [Ha Hb]. split.
      * destruct (N.eqb_spec (ke_self K) owner) as [<-|]; [|exact Ha]. cbn [andb].
        destruct (N.eqb_spec a spender) as [->|]; [|exact Ha].
        rewrite (proj1 (H spender)) in *. destruct (spender =? ke_iprove K); [congruence|lia].
      * destruct (N.eqb_spec (ke_iprove K) owner) as [<-|]; [|exact Hb]. cbn [andb].
        destruct (N.eqb_spec a spender) as [->|]; [|exact Hb]. rewrite (proj2 (H spender)) in *. lia.
    + intros ->. rewrite (proj2 (H spender)) in *. lia.
    + intros -> Hs. rewrite (proj1 (H spender)) in *. destruct (N.eqb_spec spender (ke_iprove K)); [congruence|lia].
Qed.

Lemma transfer_from_allow K t spender from to amount t' :
  ke_self K <> ke_iprove K ->
  allow_ok K t -> tk_transfer_from t spender from to amount = Ok t' ->
  allow_ok K t' /\ (from = ke_iprove K -> amount = 0) /\ (from = ke_self K -> spender <> ke_iprove K -> amount = 0).
Proof.
  intros Hd H. unfold tk_transfer_from. destruct (tk_spend _ _ _ _) as [t1|] eqn:Hs; [|discriminate].
  apply (spend_allow K) in Hs as (Hs & H1 & H2); [|exact Hd|exact H].
  intros Ht. apply transfer_ok in Ht as (Ha & _). split; [eapply allow_eq; eassumption|auto].
Qed.

(** ** Operations on the bank *)

(** Only $PROVE and $iPROVE change. *)
Definition same_shares (b b' : bank) : Prop :=
  bk_shares b' = bk_shares b /\ bk_stakes b' = bk_stakes b /\ bk_stsupply b' = bk_stsupply b.

Definition i_total_ok (b : bank) : Prop :=
  bk_isupply b = tk_total (bk_iprove b) /\ bk_isupply b <= max_votes_supply.

Lemma i_deposit_ok K c r a b b' sh :
  i_deposit K c r a b = Ok (b', sh) ->
  exists t, tk_transfer_from (bk_prove b) (ke_iprove K) c (ke_iprove K) a = Ok t /\ bk_prove b' = t /\
  r <> 0 /\ sh = a * (bk_isupply b + 1) / (i_assets K b + 1) /\
  bk_isupply b' = bk_isupply b + sh /\
  (forall x, tk_balance (bk_iprove b') x = tk_balance (bk_iprove b) x + if x =? r then sh else 0) /\
  (i_total_ok b -> i_total_ok b') /\ same_shares b b'.
Proof.
  unfold i_deposit, i_preview_deposit, i_mint. intros H. sk_inv. subst.
  cbn [bk_set_prove bk_set_iprove bk_prove bk_iprove bk_isupply bk_shares bk_stakes bk_stsupply] in *.
  eexists. split; [eassumption|]. split; [reflexivity|]. split; [lia|]. split; [reflexivity|].
  split; [reflexivity|]. split; [intros x; apply mint_balance|].
  split; [|repeat split]. intros [Ht1 Ht2]. split; cbn [bk_set_prove bk_set_iprove bk_set_share bk_isupply bk_iprove].
  - rewrite mint_total. lia.
  - lia.
Qed.

Lemma i_redeem_ok K sh r o b b' a :
  i_redeem K sh r o b = Ok (b', a) ->
  tk_transfer (bk_prove b) (ke_iprove K) r a = Ok (bk_prove b') /\
  sh <= tk_balance (bk_iprove b) o /\ a = sh * (i_assets K b + 1) / (bk_isupply b + 1) /\
  bk_isupply b' = bk_isupply b - sh /\
  (forall x, tk_balance (bk_iprove b') x = if x =? o then tk_balance (bk_iprove b) x - sh else tk_balance (bk_iprove b) x) /\
  (i_total_ok b -> i_total_ok b' /\ sh <= bk_isupply b) /\ same_shares b b'.
Proof.
  unfold i_redeem, i_preview_redeem, i_burn. intros H. sk_inv. subst.
  cbn [bk_set_prove bk_set_iprove bk_prove bk_iprove bk_isupply bk_shares bk_stakes bk_stsupply] in *.
  split; [eassumption|]. split; [lia|]. split; [reflexivity|]. split; [reflexivity|].
  match goal with H : tk_burn _ _ _ = Ok _ |- _ => pose proof (burn_total _ _ _ _ H) as Ht; apply burn_ok in H as (_ & Hle & Hb) end.
  split; [exact Hb|]. split; [|repeat split]. intros [H1' H2'].
  pose proof (balance_le_total (bk_iprove b) o). unfold i_total_ok. cbn [bk_set_prove bk_set_iprove bk_set_share bk_isupply bk_iprove]. lia.
Qed.

Lemma i_slash_ok K o sh b b' a :
  i_slash K o sh b = Ok (b', a) ->
  tk_burn (bk_prove b) (ke_iprove K) a = Ok (bk_prove b') /\
  sh <= tk_balance (bk_iprove b) o /\ a = sh * (i_assets K b + 1) / (bk_isupply b + 1) /\
  bk_isupply b' = bk_isupply b - sh /\
  (forall x, tk_balance (bk_iprove b') x = if x =? o then tk_balance (bk_iprove b) x - sh else tk_balance (bk_iprove b) x) /\
  (i_total_ok b -> i_total_ok b' /\ sh <= bk_isupply b) /\ same_shares b b'.
Proof.
  unfold i_slash, i_preview_redeem, i_burn. intros H. sk_inv. subst.
  cbn [bk_set_prove bk_set_iprove bk_prove bk_iprove bk_isupply bk_shares bk_stakes bk_stsupply] in *.
  split; [eassumption|].
  match goal with H : tk_burn (bk_iprove _) _ _ = Ok _ |- _ => pose proof (burn_total _ _ _ _ H) as Ht; apply burn_ok in H as (_ & Hle & Hb) end.
  split; [exact Hle|]. split; [reflexivity|]. split; [reflexivity|].
  split; [exact Hb|]. split; [|repeat split]. intros [H1' H2'].
  pose proof (balance_le_total (bk_iprove b) o). unfold i_total_ok. cbn [bk_set_prove bk_set_iprove bk_set_share bk_isupply bk_iprove]. lia.
Qed.

Lemma v_deposit_ok K p a b b' sh :
  v_deposit K p a b = Ok (b', sh) ->
  tk_transfer (bk_iprove b) (ke_self K) p a = Ok (bk_iprove b') /\
  sh = a * (shares_of b p + 1) / (v_assets p b + 1) /\
  bk_shares b' = <[p := shares_of b p + sh]> (bk_shares b) /\
  bk_prove b' = bk_prove b /\ bk_isupply b' = bk_isupply b /\ bk_stakes b' = bk_stakes b /\
  bk_stsupply b' = bk_stsupply b /\ (i_total_ok b -> i_total_ok b').
Proof.
  unfold v_deposit. intros H. sk_inv. subst.
  cbn [bk_set_share bk_set_iprove bk_prove bk_iprove bk_isupply bk_shares bk_stakes bk_stsupply shares_of] in *.
  repeat match goal with |- _ /\ _ => split end; try reflexivity; try eassumption.
  match goal with H : tk_transfer _ _ _ _ = Ok _ |- _ => pose proof (transfer_total _ _ _ _ _ H) as Ht end.
  intros [H1' H2']. split; cbn [bk_set_prove bk_set_iprove bk_set_share bk_isupply bk_iprove]; lia.
Qed.

Lemma v_redeem_ok K p sh b b' a :
  v_redeem K p sh b = Ok (b', a) ->
  tk_transfer (bk_iprove b) p (ke_self K) a = Ok (bk_iprove b') /\
  sh <= shares_of b p /\ a = sh * (v_assets p b + 1) / (shares_of b p + 1) /\
  bk_shares b' = <[p := shares_of b p - sh]> (bk_shares b) /\
  bk_prove b' = bk_prove b /\ bk_isupply b' = bk_isupply b /\ bk_stakes b' = bk_stakes b /\
  bk_stsupply b' = bk_stsupply b /\ (i_total_ok b -> i_total_ok b').
Proof.
  unfold v_redeem, v_preview_redeem. intros H. sk_inv. subst.
  cbn [bk_set_share bk_set_iprove bk_prove bk_iprove bk_isupply bk_shares bk_stakes bk_stsupply shares_of] in *.
  repeat match goal with |- _ /\ _ => split end; try reflexivity; try eassumption; try lia.
  match goal with H : tk_transfer _ _ _ _ = Ok _ |- _ => pose proof (transfer_total _ _ _ _ _ H) as Ht end.
  intros [H1' H2']. split; cbn [bk_set_prove bk_set_iprove bk_set_share bk_isupply bk_iprove]; lia.
Qed.

(** ** Share prices *)

(** Redeeming never costs the vault more than the shares are worth, and depositing never gives more shares
    than the assets are worth; hence the price of a share does not fall. *)
Definition price_le (A S A' S' : N) : Prop := (A + 1) * (S' + 1) <= (A' + 1) * (S + 1).

Lemma price_refl A S : price_le A S A S.
Proof. unfold price_le. lia. Qed.

Lemma price_trans A S A1 S1 A2 S2 : price_le A S A1 S1 -> price_le A1 S1 A2 S2 -> price_le A S A2 S2.
Proof.
  unfold price_le. intros H1 H2.
  apply (N.mul_le_mono_pos_r _ _ (S1 + 1)); [lia|].
  transitivity ((A1 + 1) * (S + 1) * (S2 + 1)); [nia|].
  transitivity ((A2 + 1) * (S1 + 1) * (S + 1)); [nia|]. lia.
Qed.

Lemma div_le_mul a d : d <> 0 -> a / d * d <= a.
Proof. intros H. pose proof (N.mul_div_le a d H). lia. Qed.

Lemma price_deposit A S a : price_le A S (A + a) (S + a * (S + 1) / (A + 1)).
Proof. unfold price_le. pose proof (div_le_mul (a * (S + 1)) (A + 1) ltac:(lia)). nia. Qed.

Lemma price_redeem A S sh :
  sh <= S -> sh * (A + 1) / (S + 1) <= A -> price_le A S (A - sh * (A + 1) / (S + 1)) (S - sh).
Proof.
  unfold price_le. intros Hs Ha. pose proof (div_le_mul (sh * (A + 1)) (S + 1) ltac:(lia)).
  set (q := sh * (A + 1) / (S + 1)) in *. nia.
Qed.

Lemma redeem_le_assets A S sh : sh <= S -> sh * (A + 1) / (S + 1) <= A.
Proof.
  intros H. assert (sh * (A + 1) / (S + 1) < A + 1); [|lia].
  apply N.div_lt_upper_bound; [lia|]. nia.
Qed.

Lemma preview_mono A S A' S' sh sh' :
  price_le A S A' S' -> sh <= sh' -> sh * (A + 1) / (S + 1) <= sh' * (A' + 1) / (S' + 1).
Proof.
  unfold price_le. intros Hp Hs.
  transitivity (sh * (A' + 1) / (S' + 1)); [|apply N.div_le_mono; [lia|nia]].
  apply N.div_le_lower_bound; [lia|].
  pose proof (div_le_mul (sh * (A + 1)) (S + 1) ltac:(lia)) as Hq.
  set (q := sh * (A + 1) / (S + 1)) in *.
  apply (N.mul_le_mono_pos_r _ _ (S + 1)); [lia|]. nia.
Qed.

Definition i_price (K : staking_env) (b b' : bank) : Prop :=
  price_le (i_assets K b) (bk_isupply b) (i_assets K b') (bk_isupply b').
Definition v_price (p : N) (b b' : bank) : Prop :=
  price_le (v_assets p b) (shares_of b p) (v_assets p b') (shares_of b' p).
