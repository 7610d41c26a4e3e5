(** Facts about the prover node. *)
From Coq Require Import ZifyBool ZifyN ZifyNat.
From Verif Require Export NodeSpec RetryFacts PricingFacts ArtifactsFacts Bytes.
Open Scope N_scope.

(** ** Decimal texts *)

Lemma decimal_aux_spec : forall fuel n, n < 10 ^ N.of_nat fuel -> fuel <> 0%nat ->
  Forall (fun c => 48 <= c <= 57) (decimal_aux fuel n) /\ decimal_aux fuel n <> [] /\
  fold_left (fun acc c => acc * 10 + (c - 48)) (decimal_aux fuel n) 0 = n.
Proof.
  induction fuel as [|fuel IH]; intros n Hn Hf; [easy|]. cbn [decimal_aux]. destruct (N.ltb_spec n 10) as [H|H].
  - split; [constructor; [lia|constructor]|]. split; [easy|]. cbn [fold_left]. lia.
  - assert (Hfuel : fuel <> 0%nat). { intros ->. change (10 ^ N.of_nat 1) with 10 in Hn. lia. }
    pose proof (N.mod_lt n 10 ltac:(lia)) as Hm. pose proof (N.div_mod n 10 ltac:(lia)) as Hd.
    assert (Hq : n / 10 < 10 ^ N.of_nat fuel).
    { rewrite Nat2N.inj_succ, N.pow_succ_r' in Hn. apply N.div_lt_upper_bound; lia. }
    destruct (IH (n / 10) Hq Hfuel) as (H1 & H2 & H3). split; [|split].
    + apply Forall_app. split; [exact H1|]. constructor; [lia|constructor].
    + intros E. apply (f_equal (@length N)) in E. rewrite app_length in E. cbn in E. lia.
    + rewrite fold_left_app, H3. cbn [fold_left]. lia.
Qed.

Lemma decimal_text_spec n : n < two256 -> is_decimal n (decimal_text n).
Proof.
  intros H. apply decimal_aux_spec; [|easy]. apply N.lt_le_trans with (1 := H). vm_compute. discriminate.
Qed.

(** ** Time *)

Lemma required_fin gas c d : 0 < gas -> 0 < c -> 0 < d -> gas < two64 -> exists num den, 0 < den /\
  (num < den * 2 ^ 1024 /\ required_time gas (FFin false c d) = N.min (num / den) u64_max \/
   den * 2 ^ 1024 <= num /\ required_time gas (FFin false c d) = u64_max) /\
  (gas * d * 2 ^ 52 < c /\ num < den \/
   2 ^ 106 * (num * c) <= (2 ^ 53 + 1) * ((2 ^ 53 + 1) * (gas * d * den)) /\
   (2 ^ 53 - 1) * ((2 ^ 53 - 1) * (gas * d * den)) <= 2 ^ 106 * (num * c)).
Proof.
  intros Hg Hc Hd Hlt. unfold required_time. rewrite to_f64_chosen by exact Hg.
  destruct (chosen gas 1) as [n1 d1] eqn:E1.
  assert (Hb1 : 1 <= gas * 2 ^ 1000). { pose proof (pow2_pos 1000). nia. }
  destruct (chosen_err gas 1 n1 d1 Hg ltac:(lia) Hb1 E1) as (Hd1 & U1 & L1).
  assert (Hn1 : 0 < n1).
  { destruct (N.eq_dec n1 0) as [->|]; [exfalso|lia]. clear - L1 Hg Hd1. change (2 ^ 53) with 9007199254740992 in L1. nia. }
  assert (Hsmall : n1 < d1 * 2 ^ 65).
  { clear - U1 Hlt Hd1. unfold two64 in Hlt. change (2 ^ 65) with (2 * 2 ^ 64). generalize dependent (2 ^ 64). intros X Hlt.
    change (2 ^ 53) with 9007199254740992 in U1. nia. }
  destruct (N.leb_spec (d1 * 2 ^ 1024) n1) as [Hbig|_].
  { exfalso. assert (2 ^ 65 <= 2 ^ 1024) by (apply N.pow_le_mono_r; lia). nia. }
  cbn [f64_div xorb]. destruct (N.eqb_spec c 0) as [|_]; [lia|].
  assert (Ha2 : 0 < n1 * d) by nia. assert (Hb2 : 0 < d1 * c) by nia.
  rewrite to_f64_chosen by exact Ha2. destruct (chosen (n1 * d) (d1 * c)) as [n2 d2] eqn:E2.
  destruct (chosen_le _ _ _ _ Ha2 Hb2 E2) as [Hd2 Hle]. exists n2, d2. split; [exact Hd2|]. split.
  { destruct (N.leb_spec (d2 * 2 ^ 1024) n2) as [Hbig|Hbig]; [right|left]; (split; [exact Hbig|reflexivity]). }
  assert (Hcases : d1 * c <= n1 * d * 2 ^ 1000 \/ n1 * d * 2 ^ 1000 < d1 * c) by lia.
  destruct Hcases as [Hnorm|Htiny].
  - right. destruct (chosen_err _ _ _ _ Ha2 Hb2 Hnorm E2) as (_ & U2 & L2).
    clear - U1 L1 U2 L2 Hd1. change (2 ^ 106) with (2 ^ 53 * 2 ^ 53).
    assert (H53 : 1 <= 2 ^ 53) by (vm_compute; discriminate). generalize dependent (2 ^ 53). intros u U1 L1 U2 L2 Hu.
    rewrite N.mul_1_r in *. split.
    + assert (K : d1 * (u * u * (n2 * c)) <= d1 * ((u + 1) * ((u + 1) * (gas * d * d2)))).
      { transitivity (u * ((u + 1) * (n1 * d * d2))); [nia|].
        transitivity ((u + 1) * (d * d2) * (u * n1)); [nia|].
        transitivity ((u + 1) * (d * d2) * ((u + 1) * (gas * d1))); [apply N.mul_le_mono_l; lia|]. lia. }
      apply N.mul_le_mono_pos_l in K; [exact K|exact Hd1].
    + assert (K : d1 * ((u - 1) * ((u - 1) * (gas * d * d2))) <= d1 * (u * u * (n2 * c))).
      { transitivity ((u - 1) * (d * d2) * ((u - 1) * (gas * d1))); [lia|].
        transitivity ((u - 1) * (d * d2) * (u * n1)); [apply N.mul_le_mono_l; nia|].
        transitivity (u * ((u - 1) * (n1 * d * d2))); [lia|].
        transitivity (u * (u * (n2 * (d1 * c)))); [apply N.mul_le_mono_l; nia|lia]. }
      apply N.mul_le_mono_pos_l in K; [exact K|exact Hd1].
  - left. change (2 ^ 1000) with (2 ^ 54 * 2 ^ 946) in *. pose proof (pow2_pos 946) as H946. generalize dependent (2 ^ 946). intros v _ Hle Htiny Hv.
    split.
    + clear - L1 Htiny Hv Hd1 Hg. assert (Hg2 : gas * d1 <= 2 * n1) by (change (2 ^ 53) with 9007199254740992 in L1; lia).
      change (2 ^ 54) with (4 * 2 ^ 52) in Htiny. generalize dependent (2 ^ 52). intros w Htiny.
      assert (d1 * (gas * d * w) < d1 * c); [|nia]. apply N.le_lt_trans with (2 * n1 * d * w); [nia|]. nia.
    + clear - Hle Htiny Hv Hd2. generalize dependent (n1 * d). generalize dependent (d1 * c). intros b a Hle Htiny.
      change (2 ^ 54) with 18014398509481984 in *. assert (b * (n2 * 18014398509481984) < b * (d2 * 3)); [|nia].
      nia.
Qed.

Lemma required_zero c d : required_time 0 (FFin false c d) = 0.
Proof.
  unfold required_time. cbn [to_f64 N.eqb f64_div xorb]. change (to_f64 false 0 1) with (FFin false 0 1).
  cbn [f64_div xorb]. change (0 * d) with 0. change (0 =? 0) with true. destruct (c =? 0); reflexivity.
Qed.

Lemma required_le gas c d r : 0 < c -> 0 < d -> gas < two64 -> r < u64_max ->
  required_time gas (FFin false c d) <= r -> ~ surely_too_little gas c d (r + 1).
Proof.
  intros Hc Hd Hg Hr H. unfold surely_too_little. destruct (N.eq_dec gas 0) as [->|Hg0].
  { clear - Hc. change (2 ^ 51) with 2251799813685248. nia. }
  destruct (required_fin gas c d ltac:(lia) Hc Hd Hg) as (num & den & Hden & Hreq & Hcmp).
  destruct Hreq as [[_ Hreq]|[_ Hreq]]; [|lia]. rewrite Hreq in H. clear Hreq Hg.
  assert (Hn : num < (r + 1) * den). { pose proof (N.mod_lt num den ltac:(lia)). pose proof (N.div_mod num den ltac:(lia)) as E. nia. }
  clear H Hr. generalize dependent (r + 1). intros t Hn.
  destruct Hcmp as [[Hcmp _]|[_ Hcmp]].
  - clear - Hcmp Hn. assert (Ht : 1 <= t) by lia. change (2 ^ 51) with 2251799813685248. change (2 ^ 52) with 4503599627370496 in Hcmp.
    generalize dependent (gas * d). intros a Ha. nia.
  - intros Hx. generalize dependent (gas * d). intros a Ha Hx.
    change (2 ^ 106) with 81129638414606681695789005144064 in *. change (2 ^ 53) with 9007199254740992 in *.
    change (2 ^ 51) with 2251799813685248 in *.
    assert (K : den * (2251799813685248 * (c * t)) <= den * (2251799813685247 * a)) by (apply N.mul_le_mono_l; lia).
    assert (K2 : num * c < t * den * c) by nia. nia.
Qed.

Lemma required_gt gas c d r : 0 < c -> 0 < d -> gas < two64 ->
  r < required_time gas (FFin false c d) -> ~ surely_enough gas c d (r + 1).
Proof.
  intros Hc Hd Hg H. unfold surely_enough. destruct (N.eq_dec gas 0) as [->|Hg0].
  { rewrite required_zero in H. lia. }
  destruct (required_fin gas c d ltac:(lia) Hc Hd Hg) as (num & den & Hden & Hreq & Hcmp).
  assert (Hn : (r + 1) * den <= num).
  { destruct Hreq as [[_ Hreq]|[Hbig Hreq]]; rewrite Hreq in H.
    - pose proof (N.div_mod num den ltac:(lia)) as E. assert (r + 1 <= num / den) by lia. nia.
    - assert (u64_max <= 2 ^ 1024) by (vm_compute; discriminate). transitivity (den * 2 ^ 1024); [|exact Hbig].
      generalize dependent (2 ^ 1024). clear - H. intros x _ Hx. nia. }
  clear H Hreq Hg. assert (Ht : 1 <= r + 1) by lia. generalize dependent (r + 1). intros t Hn Ht.
  destruct Hcmp as [[_ Hcmp]|[Hcmp _]]; [nia|]. intros Hx. generalize dependent (gas * d). intros a Ha Hx.
  change (2 ^ 106) with 81129638414606681695789005144064 in *. change (2 ^ 53) with 9007199254740992 in *.
  change (2 ^ 51) with 2251799813685248 in *.
  assert (K : den * (2251799813685249 * a) < den * (2251799813685248 * (c * t))) by (apply N.mul_lt_mono_pos_l; lia).
  assert (K2 : t * den * c <= num * c) by nia. nia.
Qed.

(** ** Bidding *)

Ltac peel H :=
  let t1 := fresh "t" in let t2 := fresh "t" in let a := fresh "a" in let H1 := fresh "H" in
  apply runs_bind in H; destruct H as (t1 & t2 & a & -> & H1 & H);
  try (apply runs_map in H1; destruct H1 as (? & -> & H1)); try (apply runs_ask in H1; subst).

(** An attempt to bid. *)
Inductive bid_try (n : node) (id : bytes) : list node_event -> result unit rpc_error -> Prop :=
| bt_nonce e : bid_try n id [ENonce (address_bytes n) (Err e)] (Err e)
| bt_details nonce e : bid_try n id [ENonce (address_bytes n) (Ok nonce); EDetails id (Err e)] (Err e)
| bt_unknown nonce : bid_try n id [ENonce (address_bytes n) (Ok nonce); EDetails id (Ok None)] (Err (OtherError str_details_not_found))
| bt_late nonce d now :
    pr_deadline d - now < required_time (pr_gas_limit d) (nd_throughput n) ->
    bid_try n id (looked_at n id nonce d now) (Ok tt)
| bt_bid nonce d now r :
    required_time (pr_gas_limit d) (nd_throughput n) <= pr_deadline d - now ->
    bid_try n id (looked_at n id nonce d now ++ [EBid (bid_message n nonce id) r]) r.

Lemma bid_operation_runs n id tr r : runs (bid_operation n id) tr r -> bid_try n id tr r.
Proof.
  unfold bid_operation. intros H. peel H. destruct a as [nonce|e].
  2: { destruct H as [-> ->]. constructor. }
  peel H. destruct a as [[d|]|e].
  - peel H. cbv zeta in H. destruct (N.ltb_spec (pr_deadline d - a) (required_time (pr_gas_limit d) (nd_throughput n))) as [Hl|Hl].
    + destruct H as [-> ->]. now apply (bt_late n id nonce d a).
    + apply runs_ask in H. subst. now apply (bt_bid n id nonce d a).
  - destruct H as [-> ->]. constructor.
  - destruct H as [-> ->]. constructor.
Qed.

Lemma bid_runs fuel n tr r : runs (bid fuel n) tr r ->
  ((forall m a, ~ In (EBid m a) (ops tr)) /\ r <> RUnfinished /\ r <> RPanic /\
   (forall owner t t' q rest, ops tr <> offered n owner t t' q ++ rest)) \/
  exists owner t t' q tr2 o, tr = map Op (offered n owner t t' q) ++ tr2 /\
    runs (with_retry fuel (bid_operation n (pr_id q))) tr2 o /\
    r = match o with Some (Ok _) => RDone | Some (Err e) => RError e | None => RUnfinished end.
Proof.
  unfold bid. intros H. peel H. destruct a as [owner|e].
  2: { destruct H as [-> ->]. left. split; [intros m a [?|[]]; discriminate|]. split; [easy|]. split; [easy|]. intros. discriminate. }
  peel H. peel H. destruct a0 as [assigned|e].
  2: { destruct H as [-> ->]. left. split; [intros m a0; cbn; intuition discriminate|]. split; [easy|]. split; [easy|]. intros. discriminate. }
  case_bool_decide as Hd; cbn [negb] in H.
  2: { destruct H as [-> ->]. left. split; [intros m a0; cbn; intuition discriminate|]. split; [easy|]. split; [easy|].
       intros owner' t t' q rest E. cbn in E. discriminate. }
  subst assigned. peel H. peel H. destruct a1 as [open|e].
  2: { destruct H as [-> ->]. left. split; [intros m a1; cbn; intuition discriminate|]. split; [easy|]. split; [easy|].
       intros. discriminate. }
  destruct open as [|q [|q2 open]].
  - destruct H as [-> ->]. left. split; [intros m a1; cbn; intuition discriminate|]. split; [easy|]. split; [easy|].
    intros. discriminate.
  - right. apply runs_bind in H. destruct H as (t1 & t2 & o & -> & H1 & H).
    exists owner, a, a0, q, t1, o. rewrite app_assoc, !app_assoc.
    assert (E : t2 = [] /\ r = match o with Some (Ok _) => RDone | Some (Err e) => RError e | None => RUnfinished end).
    { destruct o as [[u|e]|]; destruct H as [-> ->]; auto. }
    destruct E as [-> ->]. split; [now rewrite app_nil_r|]. auto.
  - destruct H as [-> ->]. left. split; [intros m a1; cbn; intuition discriminate|]. split; [easy|]. split; [easy|].
    intros. discriminate.
Qed.

(** What a retried operation does, finished or not. *)
Lemma with_retry_attempts {Ev T} (op : flow Ev (result T rpc_error)) fuel tr o :
  runs (with_retry fuel op) tr o ->
  exists before last, ops tr = concat (map fst before) ++ last /\
    Forall (fun a => runs op (fst a) (Err (snd a)) /\ temporary (snd a)) before /\
    match o with Some r => runs op last r | None => last = [] end.
Proof.
  intros H. destruct o as [r|].
  - destruct (retry_operation_runs op _ _ _ _ H) as (start & rest & before & Etr & H1 & H2 & H3 & H4 & last & Hl & Ho & Hr & _).
    exists before, last. split; [exact Ho|]. split; [|exact Hr]. apply (Forall_impl _ _ _ H1).
    intros a [Ha Hb]. split; [exact Ha|now apply transient_spec].
  - destruct (with_retry_none op _ _ H) as (before & Ho & Hb). exists before, []. rewrite app_nil_r. auto.
Qed.

(** Where an event of a kind that ends attempts lies. *)
Lemma locate {Ev} (before : list (list Ev * rpc_error)) last pre x post :
  concat (map fst before) ++ last = pre ++ x :: post ->
  (exists earlier a rest, In a before /\ exists u v, fst a = u ++ x :: v /\ pre = earlier ++ u /\ post = v ++ rest) \/
  (exists u v, last = u ++ x :: v /\ pre = concat (map fst before) ++ u /\ post = v).
Proof.
  revert pre. induction before as [|[t e] before IH]; intros pre; cbn [map concat fst app].
  - intros ->. right. exists pre, post. auto.
  - rewrite <- app_assoc. intros E. apply app_eq_app in E. destruct E as (l & [[E1 E2]|[E1 E2]]).
    + destruct l as [|y l].
      * rewrite app_nil_r in E1. subst t. cbn [app] in E2. symmetry in E2.
        destruct (IH [] E2) as [(ea & a & rest & Hin & u & v & Ha & Hp & Hq)|(u & v & Hl & Hp & Hq)].
        -- left. symmetry in Hp. apply app_eq_nil in Hp. destruct Hp as [-> ->].
           exists pre, a, rest. split; [now right|]. exists [], v. rewrite app_nil_r. auto.
        -- right. exists u, v. split; [exact Hl|]. split; [|exact Hq].
           symmetry in Hp. apply app_eq_nil in Hp. destruct Hp as [-> ->]. now rewrite !app_nil_r.
      * cbn [app] in E2. injection E2 as <- E2. left. exists [], (t, e), (concat (map fst before) ++ last). split; [now left|].
        exists pre, l. auto.
    + destruct (IH l E2) as [(ea & a & rest & Hin & u & v & Ha & Hp & Hq)|(u & v & Hl & Hp & Hq)].
      * left. exists (t ++ ea), a, rest. split; [now right|]. exists u, v. split; [exact Ha|]. split; [|exact Hq].
        rewrite E1, Hp. apply app_assoc.
      * right. exists u, v. split; [exact Hl|]. split; [|exact Hq]. rewrite E1, Hp. apply app_assoc.
Qed.

Lemma bid_try_split n id tr r u m a v : bid_try n id tr r -> tr = u ++ EBid m a :: v ->
  exists nonce d now, u = looked_at n id nonce d now /\ m = bid_message n nonce id /\ v = [] /\ r = a /\
    required_time (pr_gas_limit d) (nd_throughput n) <= pr_deadline d - now.
Proof.
  intros H E. destruct H as [e|nonce e|nonce|nonce d now H|nonce d now r H].
  1-4: exfalso; assert (Hin : In (EBid m a) (u ++ EBid m a :: v)) by (apply in_elt); rewrite <- E in Hin; cbn in Hin;
    intuition discriminate.
  exists nonce, d, now. unfold looked_at in *. cbn [app] in *.
  destruct u as [|u1 [|u2 [|u3 [|u4 u]]]]; cbn [app] in E; try discriminate E.
  - injection E as <- <- <- <- <- <-. auto.
  - apply (f_equal (@length node_event)) in E. cbn in E. rewrite app_length in E. cbn in E. lia.
Qed.

Lemma bid_split fuel n tr r pre m a post : runs (bid fuel n) tr r -> ops tr = pre ++ EBid m a :: post ->
  exists owner t t' q earlier nonce d now,
    pre = offered n owner t t' q ++ earlier ++ looked_at n (pr_id q) nonce d now /\
    m = bid_message n nonce (pr_id q) /\
    (post = [] \/ exists e, a = Err e /\ temporary e) /\
    required_time (pr_gas_limit d) (nd_throughput n) <= pr_deadline d - now.
Proof.
  intros H E. apply bid_runs in H. destruct H as [[H _]|(owner & t & t' & q & tr2 & o & -> & H & _)].
  { exfalso. apply (H m a). rewrite E. apply in_elt. }
  rewrite ops_app, ops_map in E.
  apply with_retry_attempts in H. destruct H as (before & last & Ho & Hb & Hlast). rewrite Ho in E.
  assert (Hpre : exists pre', pre = offered n owner t t' q ++ pre' /\ concat (map fst before) ++ last = pre' ++ EBid m a :: post).
  { apply app_eq_app in E. destruct E as (l & [[E1 E2]|[E1 E2]]); [|eauto].
    destruct l as [|y l]; [rewrite app_nil_r in E1; cbn [app] in E2; exists []; rewrite app_nil_r; auto|].
    exfalso. cbn [app] in E2. injection E2 as E3 _. subst y.
    assert (Hin : In (EBid m a) (offered n owner t t' q)) by (rewrite E1; apply in_elt). cbn in Hin. intuition discriminate. }
  destruct Hpre as (pre' & -> & E'). clear E. rename E' into E.
  apply locate in E. destruct E as [(ea & [ta ee] & rest & Hin & u & v & Ha & Hp & Hq)|(u & v & Hl & Hp & Hq)].
  - rewrite Forall_forall in Hb. apply elem_of_list_In in Hin. destruct (Hb _ Hin) as [Hr Ht]. cbn [fst snd] in *.
    apply bid_operation_runs in Hr. destruct (bid_try_split _ _ _ _ _ _ _ _ Hr Ha) as (nonce & d & now & -> & -> & -> & <- & Hle).
    exists owner, t, t', q, ea, nonce, d, now. rewrite Hp. split; [reflexivity|]. split; [reflexivity|]. split; [|exact Hle]. right. eauto.
  - destruct o as [r0|].
    + apply bid_operation_runs in Hlast. destruct (bid_try_split _ _ _ _ _ _ _ _ Hlast Hl) as (nonce & d & now & -> & -> & -> & <- & Hle).
      exists owner, t, t', q, (concat (map fst before)), nonce, d, now. rewrite Hp. auto.
    + rewrite Hlast in Hl. destruct u; discriminate.
Qed.

Lemma bid_try_now n id tr r u now v : bid_try n id tr r -> tr = u ++ ENow now :: v ->
  exists nonce d, u ++ [ENow now] = looked_at n id nonce d now /\
    ((v = [] /\ r = Ok tt /\ pr_deadline d - now < required_time (pr_gas_limit d) (nd_throughput n)) \/
     (exists a, v = [EBid (bid_message n nonce id) a] /\ r = a)).
Proof.
  intros H E. destruct H as [e|nonce e|nonce|nonce d now' H|nonce d now' r H].
  1-3: exfalso; assert (Hin : In (ENow now) (u ++ ENow now :: v)) by (apply in_elt); rewrite <- E in Hin; cbn in Hin;
    intuition discriminate.
  - exists nonce, d. unfold looked_at in *. destruct u as [|u1 [|u2 [|u3 u]]]; cbn [app] in E; try discriminate E.
    + injection E as <- <- <- <-. auto 6.
    + apply (f_equal (@length node_event)) in E. cbn in E. rewrite app_length in E. cbn in E. lia.
  - exists nonce, d. unfold looked_at in *. cbn [app] in *.
    destruct u as [|u1 [|u2 [|u3 [|u4 u]]]]; cbn [app] in E; try discriminate E.
    + injection E as <- <- <- <-. eauto 6.
    + apply (f_equal (@length node_event)) in E. cbn in E. rewrite app_length in E. cbn in E. lia.
Qed.

Lemma offered_inj n o1 t1 t1' q1 o2 t2 t2' q2 (a b : list node_event) :
  offered n o1 t1 t1' q1 ++ a = offered n o2 t2 t2' q2 ++ b -> q1 = q2 /\ a = b.
Proof. unfold offered. cbn [app]. intros E. injection E. intros. subst. auto. Qed.

(** When a bid is made. *)
Lemma bid_made fuel n tr r owner t t' q earlier nonce d now post : runs (bid fuel n) tr r ->
  ops tr = offered n owner t t' q ++ earlier ++ looked_at n (pr_id q) nonce d now ++ post ->
  (post = [] /\ r = RDone /\ pr_deadline d - now < required_time (pr_gas_limit d) (nd_throughput n)) \/
  (exists a post', post = EBid (bid_message n nonce (pr_id q)) a :: post').
Proof.
  intros H E. apply bid_runs in H. destruct H as [(_ & _ & _ & H)|(owner' & u & u' & q' & tr2 & o & -> & H & Hr)].
  { exfalso. eapply H, E. }
  rewrite ops_app, ops_map in E. apply offered_inj in E. destruct E as [-> E].
  apply with_retry_attempts in H. destruct H as (before & last & Ho & Hb & Hlast). rewrite Ho in E.
  unfold looked_at in E. 
  change (concat (map fst before) ++ last =
    earlier ++ ([ENonce (address_bytes n) (Ok nonce); EDetails (pr_id q) (Ok (Some d))] ++ ENow now :: post)) in E.
  rewrite app_assoc in E.
  assert (Same : forall ea u nonce' d', earlier ++ [ENonce (address_bytes n) (Ok nonce); EDetails (pr_id q) (Ok (Some d))] = ea ++ u ->
    u ++ [ENow now] = looked_at n (pr_id q) nonce' d' now -> nonce' = nonce /\ d' = d).
  { intros ea u1 nonce' d' E1 E2. unfold looked_at in E2.
    change [ENonce (address_bytes n) (Ok nonce'); EDetails (pr_id q) (Ok (Some d')); ENow now]
      with ([ENonce (address_bytes n) (Ok nonce'); EDetails (pr_id q) (Ok (Some d'))] ++ [ENow now]) in E2.
    apply app_inv_tail in E2. subst u1.
    change (earlier ++ [ENonce (address_bytes n) (Ok nonce)] ++ [EDetails (pr_id q) (Ok (Some d))] =
      ea ++ [ENonce (address_bytes n) (Ok nonce')] ++ [EDetails (pr_id q) (Ok (Some d'))]) in E1.
    rewrite !app_assoc in E1. apply app_inj_tail in E1. destruct E1 as [E1 [= ->]].
    apply app_inj_tail in E1. destruct E1 as [E1 [= ->]]. auto. }
  apply locate in E. destruct E as [(ea & [ta ee] & rest & Hin & u1 & v & Ha & Hp & Hq)|(u1 & v & Hl & Hp & Hq)].
  - rewrite Forall_forall in Hb. apply elem_of_list_In in Hin. destruct (Hb _ Hin) as [Hrun Ht]. cbn [fst snd] in *.
    apply bid_operation_runs in Hrun. destruct (bid_try_now _ _ _ _ _ _ _ Hrun Ha) as (nonce' & d' & Hlook & Hcase).
    destruct (Same _ _ _ _ Hp Hlook) as [-> ->]. destruct Hcase as [(-> & [= ] & _)|(a & -> & <-)].
    right. rewrite Hq. eexists _, _. reflexivity.
  - destruct o as [r0|].
    + apply bid_operation_runs in Hlast. destruct (bid_try_now _ _ _ _ _ _ _ Hlast Hl) as (nonce' & d' & Hlook & Hcase).
      destruct (Same _ _ _ _ Hp Hlook) as [-> ->]. destruct Hcase as [(-> & -> & Hlt)|(a & -> & <-)].
      * left. auto.
      * right. rewrite Hq. eauto.
    + rewrite Hlast in Hl. destruct u1; discriminate.
Qed.

(** How a round with an offer ends. *)
Lemma bid_end fuel n tr owner t t' q rest : runs (bid fuel n) tr RDone ->
  ops tr = offered n owner t t' q ++ rest ->
  exists earlier nonce d now,
    (rest = earlier ++ looked_at n (pr_id q) nonce d now ++ [EBid (bid_message n nonce (pr_id q)) (Ok tt)]) \/
    (rest = earlier ++ looked_at n (pr_id q) nonce d now /\
     pr_deadline d - now < required_time (pr_gas_limit d) (nd_throughput n)).
Proof.
  intros H E. apply bid_runs in H. destruct H as [(_ & _ & _ & H)|(owner' & u & u' & q' & tr2 & o & -> & H & Hr)].
  { exfalso. eapply H, E. }
  rewrite ops_app, ops_map in E. apply offered_inj in E. destruct E as [-> <-].
  apply with_retry_attempts in H. destruct H as (before & last & Ho & Hb & Hlast). rewrite Ho.
  destruct o as [[[]|e]|]; [|discriminate|discriminate].
  apply bid_operation_runs in Hlast. exists (concat (map fst before)). inversion Hlast as [| | |nonce d now Hlt E1 E2|nonce d now r0 Hle E1 E2]; subst.
  - exists nonce, d, now. right. auto.
  - exists nonce, d, now. left. reflexivity.
Qed.

Lemma well_timed_ops' {Ev} (l : list Ev) now rest : well_timed now (map Op l ++ rest) -> well_timed now rest.
Proof. apply well_timed_ops. Qed.

Lemma bid_total fuel n tr r now : runs (bid fuel n) tr r -> well_timed now tr -> (12 <= fuel)%nat ->
  r = RDone \/ exists e, r = RError e.
Proof.
  intros H Hw Hf. apply bid_runs in H. destruct H as [(_ & H1 & H2 & _)|(owner' & u & u' & q' & tr2 & o & -> & H & Hr)].
  { destruct r; try easy; eauto. }
  apply well_timed_ops' in Hw. destruct (with_retry_bounded _ _ _ _ _ H Hw) as [_ Hn]. specialize (Hn Hf).
  destruct o as [[u0|e]|]; [auto|eauto|easy].
Qed.

(** ** Proving *)

Lemma tried_tries n (sends : N -> node_event -> result unit rpc_error -> Prop) (op : flow node_event (result unit rpc_error)) :
  (forall tr r, runs op tr r -> one_try n sends tr r) -> forall tr r, tried op tr r -> tries n sends tr r.
Proof.
  intros Hop tr r H. induction H as [tr r H|tr e rest r H He _ IH].
  - apply last_try. auto.
  - apply (try_again n sends tr e); auto.
Qed.

Lemma fail_runs n id tr r : runs (fail_operation n id) tr r -> one_try n (sends_failure n id) tr r.
Proof.
  unfold fail_operation. intros H. peel H. destruct a as [nonce|e].
  - apply runs_ask in H. subst. apply (sent n (sends_failure n id) nonce). eexists. split; [|reflexivity]. reflexivity.
  - destruct H as [-> ->]. constructor.
Qed.

Lemma fulfill_runs n id proof tr r : runs (fulfill_operation n id proof) tr r -> one_try n (sends_fulfilment n id proof) tr r.
Proof.
  unfold fulfill_operation. intros H. peel H. destruct a as [nonce|e].
  - apply runs_ask in H. subst. apply (sent n (sends_fulfilment n id proof) nonce). eexists. split; [|reflexivity]. reflexivity.
  - destruct H as [-> ->]. constructor.
Qed.

Lemma submit_runs fuel op tr done : runs (submit fuel op) tr done ->
  (done = true -> exists r, tried op (ops tr) r) /\ (forall now, well_timed now tr -> (12 <= fuel)%nat -> done = true).
Proof.
  unfold submit. intros H. apply runs_bind in H. destruct H as (t1 & t2 & o & -> & H1 & H). destruct H as [-> ->].
  rewrite app_nil_r. destruct o as [r|].
  - split; [|auto]. intros _. exists r. now apply with_retry_tried in H1.
  - split; [discriminate|]. intros now Hw Hf. destruct (with_retry_bounded _ _ _ _ _ H1 Hw) as [_ Hn]. now specialize (Hn Hf).
Qed.

Lemma proving_mode_spec tag : match proving_mode tag with Some m => mode_wanted tag m | None => tag = 0%Z end.
Proof.
  unfold proving_mode, mode_of_tag, mode_wanted.
  destruct tag as [|p|p]; [reflexivity| |right; right; right; repeat split; easy].
  destruct p as [[[p|p|]|[p|p|]|]|[[p|p|]|[p|p|]|]|]; cbn; lia || intuition (congruence || lia).
Qed.

Lemma task_runs program stdin mode tr o : runs (proving_task program stdin mode) tr o ->
  match o with
  | Some (proof, cycles, time) => exists key, tr ++ [EMetrics cycles time tt] = proved program stdin key mode cycles proof time
  | None => unproved program stdin mode tr
  end.
Proof.
  unfold proving_task. intros H. peel H. destruct a as [key|e| |].
  2-4: destruct H as [-> ->]; apply no_setup; easy.
  peel H. destruct a as [cycles|e| |].
  2-4: destruct H as [-> ->]; apply no_execution; easy.
  peel H. destruct a as [[proof time]|e| |].
  2-4: destruct H as [-> ->]; apply no_proof; easy.
  destruct H as [-> ->]. exists key. reflexivity.
Qed.

(** One request is dealt with and the rest follows, or it ends the round. *)
Lemma prove_request_runs fuel n q next tr r : runs (prove_request fuel n q next) tr r ->
  (exists seg rest, ops tr = seg ++ ops rest /\ handled n q seg /\ runs next rest r /\
     forall now, well_timed now tr -> exists later, well_timed later rest) \/
  abandoned q (ops tr) r \/
  (r = RUnfinished /\ forall now, well_timed now tr -> ~ (12 <= fuel)%nat).
Proof.
  unfold prove_request. cbv zeta. intros H.
  (* the two ways to go on after a submission *)
  assert (Go : forall head op tr2 (sends : N -> node_event -> result unit rpc_error -> Prop),
    (forall t r0, runs op t r0 -> one_try n sends t r0) ->
    (forall t r0, tries n sends t r0 -> handled n q (head ++ t)) ->
    runs (flow_bind (submit fuel op) (fun done => if done then next else Ret RUnfinished)) tr2 r ->
    ops tr = head ++ ops tr2 -> (forall now, well_timed now tr -> well_timed now tr2) ->
    (exists seg rest, ops tr = seg ++ ops rest /\ handled n q seg /\ runs next rest r /\
       forall now, well_timed now tr -> exists later, well_timed later rest) \/
    abandoned q (ops tr) r \/
    (r = RUnfinished /\ forall now, well_timed now tr -> ~ (12 <= fuel)%nat)).
  { intros head op tr2 sends Hop Hh H2 Etr Hw. apply runs_bind in H2. destruct H2 as (t1 & t2 & done & -> & H1 & H2).
    destruct (submit_runs _ _ _ _ H1) as [S1 S2]. destruct done.
    - left. destruct (S1 eq_refl) as [r0 S]. exists (head ++ ops t1), t2. rewrite Etr, ops_app, app_assoc.
      split; [reflexivity|]. split; [|split; [exact H2|]].
      + apply (Hh _ r0). apply (tried_tries n sends op Hop _ _ S).
      + intros now Hnow. apply Hw in Hnow. apply well_timed_app in Hnow. tauto.
    - right. right. destruct H2 as [-> ->]. split; [reflexivity|]. intros now Hnow Hf. apply Hw in Hnow.
      apply well_timed_app in Hnow. destruct Hnow as [Hnow _]. discriminate (S2 now Hnow Hf). }
  peel H. destruct a.
  { eapply (Go [EUnexecutable (pr_id q) true] (fail_operation n (pr_id q))); [apply fail_runs| |exact H|reflexivity|auto].
    intros t r0 Ht. now apply (skipped n q t r0). }
  destruct (extract_total (pr_program_uri q)) as (name1 & E1 & _). rewrite E1 in H.
  peel H. destruct a as [program|e].
  2: { destruct H as [-> ->]. right. left. constructor. }
  destruct (extract_total (pr_stdin_uri q)) as (name2 & E2 & _). rewrite E2 in H.
  peel H. destruct a as [stdin|e].
  2: { destruct H as [-> ->]. right. left. constructor. }
  pose proof (proving_mode_spec (pr_mode q)) as Hmode. destruct (proving_mode (pr_mode q)) as [mode|].
  2: { destruct H as [-> ->]. right. left. now constructor. }
  peel H. apply task_runs in H0. destruct a as [[[proof cycles] time]|].
  - destruct H0 as [key H0]. peel H. destruct a. destruct proof as [proof|].
    + eapply (Go (downloaded q program stdin ++ proved program stdin key mode cycles (Some proof) time)
        (fulfill_operation n (pr_id q) proof)); [apply fulfill_runs| |exact H| |].
      * intros t r0 Ht. rewrite <- app_assoc. now apply (fulfilled n q program stdin key mode cycles proof time t r0).
      * rewrite <- H0. rewrite !ops_app, ops_map. unfold downloaded. cbn [map app ops flat_map]. rewrite <- ?app_assoc. now rewrite !ops_map.
      * intros now Hw. cbn in Hw. apply well_timed_ops' in Hw. exact Hw.
    + destruct H as [-> ->]. right. left.
      replace (ops _) with (downloaded q program stdin ++ proved program stdin key mode cycles None time);
        [now apply (not_serializable q program stdin key mode cycles time)|].
      rewrite <- H0, !ops_app, !ops_map. reflexivity.
  - eapply (Go (downloaded q program stdin ++ x) (fail_operation n (pr_id q))); [apply fail_runs| |exact H| |].
    + intros t r0 Ht. rewrite <- app_assoc. now apply (given_up n q program stdin mode x t r0).
    + rewrite !ops_app, !ops_map. reflexivity.
    + intros now Hw. cbn in Hw. apply well_timed_ops' in Hw. exact Hw.
Qed.

Lemma prove_all_runs fuel n : (12 <= fuel)%nat -> forall qs tr r now, runs (prove_all fuel n qs) tr r -> well_timed now tr ->
  exists segs,
    (r = RDone /\ ops tr = concat segs /\ Forall2 (handled n) qs segs) \/
    (exists qs1 q qs2 last, qs = qs1 ++ q :: qs2 /\ ops tr = concat segs ++ last /\
       Forall2 (handled n) qs1 segs /\ abandoned q last r).
Proof.
  intros Hf. induction qs as [|q qs IH]; intros tr r now; cbn [prove_all].
  - intros [-> ->] _. exists []. left. split; [reflexivity|]. split; [reflexivity|constructor].
  - intros H Hw. apply prove_request_runs in H. destruct H as [(seg & rest & E & Hh & Hrun & Hlater)|[Hab|[_ Hno]]].
    + destruct (Hlater now Hw) as [later Hl]. destruct (IH _ _ _ Hrun Hl) as (segs & [(-> & E2 & HF)|(qs1 & q' & qs2 & last & -> & E2 & HF & Hab)]).
      * exists (seg :: segs). left. split; [reflexivity|]. cbn [concat]. rewrite E, E2. split; [reflexivity|now constructor].
      * exists (seg :: segs). right. exists (q :: qs1), q', qs2, last. split; [reflexivity|]. cbn [concat].
        rewrite E, E2, app_assoc. split; [reflexivity|]. split; [now constructor|exact Hab].
    + exists []. right. exists [], q, qs, (ops tr). auto.
    + exfalso. exact (Hno now Hw Hf).
Qed.

Lemma prove_runs fuel n tr r now : runs (prove fuel n) tr r -> well_timed now tr -> (12 <= fuel)%nat ->
  (exists e, ops tr = [EOwner (address_bytes n) (Err e)] /\ r = RError e) \/
  (exists owner t e, ops tr = asked_assigned n owner t (Err e) /\ r = RError e) \/
  (exists owner t qs segs,
    (r = RDone /\ ops tr = asked_assigned n owner t (Ok qs) ++ concat segs /\ Forall2 (handled n) qs segs) \/
    (exists qs1 q qs2 last, qs = qs1 ++ q :: qs2 /\ ops tr = asked_assigned n owner t (Ok qs) ++ concat segs ++ last /\
       Forall2 (handled n) qs1 segs /\ abandoned q last r)).
Proof.
  unfold prove. intros H Hw Hf. peel H. destruct a as [owner|e].
  2: { destruct H as [-> ->]. left. eauto. }
  peel H. peel H. destruct a0 as [qs|e].
  2: { destruct H as [-> ->]. right. left. exists owner, a, e. split; reflexivity. }
  right. right. exists owner, a, qs. cbn [map app well_timed] in Hw.
  destruct (prove_all_runs fuel n Hf _ _ _ _ H Hw) as (segs & [(-> & E & HF)|(qs1 & q' & qs2 & last & -> & E & HF & Hab)]); exists segs.
  - left. split; [reflexivity|]. split; [|exact HF]. rewrite !ops_app, E. reflexivity.
  - right. exists qs1, q', qs2, last. split; [reflexivity|]. split; [|auto]. rewrite !ops_app, E. reflexivity.
Qed.

(** What a handled request can send. *)
Lemma tries_events n sends tr r e : tries n sends tr r -> In e tr ->
  (exists x, e = ENonce (address_bytes n) x) \/ exists nonce r', sends nonce e r'.
Proof.
  intros H. assert (One : forall t r0, one_try n sends t r0 -> In e t ->
    (exists x, e = ENonce (address_bytes n) x) \/ exists nonce r', sends nonce e r').
  { intros t r0 Ht. destruct Ht as [e0|nonce ev r0 Hs].
    - intros [<-|[]]. eauto.
    - intros [<-|[<-|[]]]; eauto. }
  induction H as [tr r H|tr e0 rest r H He _ IH]; [eauto|]. intros Hin. apply in_app_or in Hin. destruct Hin; eauto.
Qed.

Lemma handled_one_side n q seg id : handled n q seg ->
  (forall e, In e seg -> fulfils id e -> id = pr_id q) /\ (forall e, In e seg -> fails id e -> id = pr_id q) /\
  (forall e1 e2, In e1 seg -> In e2 seg -> fulfils id e1 -> fails id e2 -> False).
Proof.
  intros H.
  assert (F1 : forall x e, sends_failure n (pr_id q) (fst x) e (snd x) -> (fails id e -> id = pr_id q) /\ ~ fulfils id e).
  { intros x e (m & -> & ->). split; [intros (m' & r & b & [= <- <-] & [= <-] & <-); reflexivity|intros (m' & r & b & E & _); discriminate]. }
  assert (F2 : forall p x e, sends_fulfilment n (pr_id q) p (fst x) e (snd x) -> (fulfils id e -> id = pr_id q) /\ ~ fails id e).
  { intros p x e (m & -> & ->). split; [intros (m' & r & b & [= <- <-] & [= <-] & <-); reflexivity|intros (m' & r & b & E & _); discriminate]. }
  assert (Quiet : forall e, (forall m r, e <> EFulfill m r) -> (forall m r, e <> EFail m r) -> ~ fulfils id e /\ ~ fails id e).
  { intros e H1 H2. split; intros (m & r & b & E & _); [now apply (H1 m r)|now apply (H2 m r)]. }
  assert (Tf : forall tr r e, tries n (sends_failure n (pr_id q)) tr r -> In e tr -> (fails id e -> id = pr_id q) /\ ~ fulfils id e).
  { intros tr r e Ht Hin. destruct (tries_events _ _ _ _ _ Ht Hin) as [[x ->]|(nonce & r' & Hs)].
    - destruct (Quiet (ENonce (address_bytes n) x)); try easy.
    - apply (F1 (nonce, r') e Hs). }
  assert (Tp : forall p tr r e, tries n (sends_fulfilment n (pr_id q) p) tr r -> In e tr -> (fulfils id e -> id = pr_id q) /\ ~ fails id e).
  { intros p tr r e Ht Hin. destruct (tries_events _ _ _ _ _ Ht Hin) as [[x ->]|(nonce & r' & Hs)].
    - destruct (Quiet (ENonce (address_bytes n) x)); try easy.
    - apply (F2 p (nonce, r') e Hs). }
  destruct H as [tr r Ht|program stdin key mode cycles proof time tr r Hm Ht|program stdin mode task tr r Hm Hu Ht].
  - assert (A : forall e, In e (EUnexecutable (pr_id q) true :: tr) -> (fails id e -> id = pr_id q) /\ ~ fulfils id e).
    { intros e [<-|Hin]; [|eauto]. destruct (Quiet (EUnexecutable (pr_id q) true)); try easy. }
    split; [|split].
    + intros e Hin Hf. destruct (A e Hin). easy.
    + intros e Hin. apply A, Hin.
    + intros e1 e2 H1 H2 Hf _. destruct (A e1 H1). easy.
  - assert (A : forall e, In e (downloaded q program stdin ++ proved program stdin key mode cycles (Some proof) time ++ tr) ->
      (fulfils id e -> id = pr_id q) /\ ~ fails id e).
    { intros e Hin. rewrite app_assoc in Hin. apply in_app_or in Hin. destruct Hin as [Hin|Hin]; [|eauto].
      destruct (Quiet e); [| |easy].
      - intros m r0 ->. cbn in Hin. intuition discriminate.
      - intros m r0 ->. cbn in Hin. intuition discriminate. }
    split; [|split].
    + intros e Hin. apply A, Hin.
    + intros e Hin Hf. destruct (A e Hin). easy.
    + intros e1 e2 H1 H2 _ Hf. destruct (A e2 H2). easy.
  - assert (A : forall e, In e (downloaded q program stdin ++ task ++ tr) -> (fails id e -> id = pr_id q) /\ ~ fulfils id e).
    { intros e Hin. rewrite app_assoc in Hin. apply in_app_or in Hin. destruct Hin as [Hin|Hin]; [|eauto].
      destruct (Quiet e); [| |easy].
      - intros m r0 ->. destruct Hu; cbn in Hin; intuition discriminate.
      - intros m r0 ->. destruct Hu; cbn in Hin; intuition discriminate. }
    split; [|split].
    + intros e Hin Hf. destruct (A e Hin). easy.
    + intros e Hin. apply A, Hin.
    + intros e1 e2 H1 H2 Hf _. destruct (A e1 H1). easy.
Qed.

Lemma abandoned_quiet q last r id e : abandoned q last r -> In e last -> ~ fulfils id e /\ ~ fails id e.
Proof.
  intros H Hin. split; intros (m & r0 & b & -> & _); destruct H; cbn in Hin; intuition discriminate.
Qed.

Lemma handled_all n qs segs id : Forall2 (handled n) qs segs -> NoDup (map pr_id qs) ->
  forall e1 e2, In e1 (concat segs) -> In e2 (concat segs) -> fulfils id e1 -> fails id e2 -> False.
Proof.
  intros HF Hnd e1 e2 H1 H2 Hf1 Hf2.
  revert Hnd H1 H2. induction HF as [|q seg qs segs Hh HF IH]; intros Hnd H1 H2; [destruct H1|].
  cbn [map concat] in *. apply NoDup_cons in Hnd. destruct Hnd as [Hni Hnd].
  assert (Ids : forall e, In e (concat segs) -> (fulfils id e \/ fails id e) -> In id (map pr_id qs)).
  { clear - HF. induction HF as [|q seg qs segs Hh HF IH]; intros e Hin; [destruct Hin|].
    cbn [concat] in Hin. apply in_app_or in Hin. destruct (handled_one_side n q seg id Hh) as (A & B & _). cbn [map In].
    destruct Hin as [Hin|Hin]; [|now right; apply (IH e)]. intros [Hf|Hf]; left; symmetry; eauto. }
  destruct (handled_one_side n q seg id Hh) as (A & B & C). rewrite elem_of_list_In in Hni.
  apply in_app_or in H1. apply in_app_or in H2. destruct H1 as [H1|H1], H2 as [H2|H2].
  - eauto.
  - apply Hni. rewrite <- (A e1 H1 Hf1). apply (Ids e2 H2). auto.
  - apply Hni. rewrite <- (B e2 H2 Hf2). apply (Ids e1 H1). auto.
  - auto.
Qed.

Lemma b256_of_be_bytes x : x < 2 ^ 256 -> as_word (be_bytes 32 x) = Some x.
Proof.
  intros H. unfold as_word. rewrite be_bytes_length. cbn [Nat.eqb]. rewrite from_be_be_bytes. f_equal. now apply N.mod_small.
Qed.

(** The fulfilments sent in a round. *)
Lemma fulfil_sent fuel n tr r now m a : runs (prove fuel n) tr r -> well_timed now tr -> (12 <= fuel)%nat ->
  In (EFulfill m a) (ops tr) -> exists id proof nonce, m = fulfill_message n nonce id proof.
Proof.
  intros H Hw Hf Hin.
  assert (One : forall q seg, handled n q seg -> In (EFulfill m a) seg -> exists id proof nonce, m = fulfill_message n nonce id proof).
  { intros q seg Hh Hs. destruct Hh as [t r0 Ht|program stdin key mode cycles proof time t r0 Hm Ht|program stdin mode task t r0 Hm Hu Ht].
    - destruct Hs as [Hs|Hs]; [discriminate|]. destruct (tries_events _ _ _ _ _ Ht Hs) as [[x Hx]|(nonce & r' & m' & _ & Hx)]; discriminate.
    - rewrite app_assoc in Hs. apply in_app_or in Hs. destruct Hs as [Hs|Hs]; [cbn in Hs; intuition discriminate|].
      destruct (tries_events _ _ _ _ _ Ht Hs) as [[x Hx]|(nonce & r' & m' & Hm' & Hx)]; [discriminate|].
      injection Hx as <- <-. exists (pr_id q), proof, nonce. exact Hm'.
    - rewrite app_assoc in Hs. apply in_app_or in Hs. destruct Hs as [Hs|Hs]; [destruct Hu; cbn in Hs; intuition discriminate|].
      destruct (tries_events _ _ _ _ _ Ht Hs) as [[x Hx]|(nonce & r' & m' & _ & Hx)]; discriminate. }
  assert (All : forall qs segs, Forall2 (handled n) qs segs -> In (EFulfill m a) (concat segs) ->
    exists id proof nonce, m = fulfill_message n nonce id proof).
  { intros qs segs HF. induction HF as [|q seg qs segs Hh HF IH]; intros Hs; [destruct Hs|].
    cbn [concat] in Hs. apply in_app_or in Hs. destruct Hs; eauto. }
  destruct (prove_runs fuel n tr r now H Hw Hf) as [(e & E & _)|[(owner & t & e & E & _)|(owner & t & qs & segs & Hcase)]].
  - rewrite E in Hin. cbn in Hin. intuition discriminate.
  - rewrite E in Hin. cbn in Hin. intuition discriminate.
  - destruct Hcase as [(_ & E & HF)|(qs1 & q & qs2 & last & -> & E & HF & Hab)]; rewrite E in Hin; apply in_app_or in Hin;
      (destruct Hin as [Hin|Hin]; [cbn in Hin; intuition discriminate|]).
    + eauto.
    + apply in_app_or in Hin. destruct Hin as [Hin|Hin]; [eauto|]. destruct Hab; cbn in Hin; intuition discriminate.
Qed.
