(** The events of the settlement contract tell its state. *)
From Verif Require Export L1Calls L1Solvent EventsSpec.
From Coq Require Import Lia ZifyBool ZifyN ZifyNat.
Open Scope N_scope.

Local Opaque request_index.

(** ** Lists of events *)

Lemma changed_app a l1 b l2 c : changed a l1 b -> changed b l2 c -> changed a (l1 ++ l2) c.
Proof. induction 1; intros H2; [exact H2|]. cbn. constructor. auto. Qed.

Lemma changed_one a b : changed a [(a, b)] b.
Proof. repeat constructor. Qed.

(** The events of receipts. *)
Definition of_receipt (e : l1_event) : Prop :=
  match e with EvCompleted _ _ _ | EvReverted _ _ _ | EvWithdraw _ _ => True | _ => False end.

Lemma onchain_of_receipt r v : Forall of_receipt (onchain_events r v).
Proof. unfold onchain_events. destruct (sr_status r); repeat constructor. Qed.
Lemma offchain_of_receipt r : Forall of_receipt (offchain_events r).
Proof. unfold offchain_events. destruct (sr_status r); [destruct (l1_decode_withdraw _)..|]; repeat constructor. Qed.
Lemma receipts_of_receipt L x rs : forall v, Forall of_receipt (receipts_events L x rs v).
Proof.
  induction rs as [|r rs IH]; intros v; cbn [receipts_events]; [constructor|]. apply Forall_app. split.
  - destruct (negb _); [apply onchain_of_receipt|apply offchain_of_receipt].
  - destruct (if negb _ then _ else _); [apply IH|constructor].
Qed.

Lemma omap_of_receipt {X} (f : l1_event -> option X) l :
  (forall e, of_receipt e -> f e = None) -> Forall of_receipt l -> omap f l = [].
Proof.
  intros Hf. induction 1 as [|e l He _ IH]; [reflexivity|]. cbn. rewrite (Hf e He). exact IH.
Qed.

Ltac receipts_none := intros [] He; cbn in He |- *; tauto.

Lemma omap_receipts_app {X} (f : l1_event -> option X) L x rs v rest :
  (forall e, of_receipt e -> f e = None) -> omap f (receipts_events L x rs v ++ rest) = omap f rest.
Proof. intros Hf. rewrite omap_app, (omap_of_receipt f _ Hf (receipts_of_receipt L x rs v)). reflexivity. Qed.

(** ** Settings *)

Record settings_step (events : list l1_event) (v v' : l1_state) : Prop := {
  ss_owner : changed (va_owner v) (omap owner_change events) (va_owner v');
  ss_auctioneer : changed (va_auctioneer v) (omap auctioneer_change events) (va_auctioneer v');
  ss_staking : changed (va_staking v) (omap staking_change events) (va_staking v');
  ss_verifier : changed (va_verifier v) (omap verifier_change events) (va_verifier v');
  ss_minimum : changed (va_min_deposit v) (omap minimum_change events) (va_min_deposit v');
  ss_vkey : changed (va_vkey v) (omap vkey_change events) (va_vkey v');
  ss_paused : va_paused v' = default (va_paused v) (last (omap pause_change events))
}.

Lemma settings_same events v v' : settings v' = settings v ->
  omap owner_change events = [] -> omap auctioneer_change events = [] -> omap staking_change events = [] ->
  omap verifier_change events = [] -> omap minimum_change events = [] -> omap vkey_change events = [] ->
  omap pause_change events = [] -> settings_step events v v'.
Proof.
  intros Hs H1 H2 H3 H4 H5 H6 H7. unfold settings in Hs.
  assert (va_owner v' = va_owner v /\ va_paused v' = va_paused v /\ va_vkey v' = va_vkey v /\
    va_auctioneer v' = va_auctioneer v /\ va_staking v' = va_staking v /\ va_verifier v' = va_verifier v /\
    va_min_deposit v' = va_min_deposit v) as (E1 & E2 & E3 & E4 & E5 & E6 & E7).
  { repeat (apply pair_equal_spec in Hs as [Hs ?]). repeat split; assumption. }
  constructor; rewrite ?H1, ?H2, ?H3, ?H4, ?H5, ?H6, ?H7, ?E1, ?E2, ?E3, ?E4, ?E5, ?E6, ?E7; try constructor.
Qed.

Lemma run_settings_step L x c v v' : l1_run L x c v = Ok v' -> settings_step (l1_events L x c v) v v'.
Proof.
  intros H. destruct c as [amount|from amount|prover owner bips|b proof|vkey root|c]; cbn [l1_run l1_events] in *.
  - unfold l1_deposit in H. l1_inv. apply deposit_settings in H. now apply settings_same.
  - apply permit_ok in H as (_ & [(_ & H)|(_ & H)]); apply deposit_settings in H; now apply settings_same.
  - unfold l1_create_prover in H. l1_inv. unfold create_transaction in H. l1_inv. subst v'. now apply settings_same.
  - apply step_ok in H as (p & Hp & H). apply handle_settings in H. unfold step_events.
    rewrite (sa_decoded _ _ _ _ _ _ Hp).
    apply settings_same; [exact H|rewrite omap_receipts_app by receipts_none; reflexivity..].
  - unfold l1_fork in H. l1_inv. subst v'. constructor; cbn; repeat constructor.
  - unfold l1_admin in H. l1_inv.
    destruct c; repeat match type of H with context [if ?b then _ else _] => destruct b eqn:? end;
      l1_inv; subst; constructor; cbn; repeat constructor.
Qed.

Lemma last_default_app {X} (d : X) a b : default d (last (a ++ b)) = default (default d (last a)) (last b).
Proof. rewrite last_app. destruct (last b); reflexivity. Qed.

Lemma told_step evs events v v' : settings_told evs v -> settings_step events v v' -> settings_told (evs ++ events) v'.
Proof.
  intros [A1 A2 A3 A4 A5 A6 A7] [B1 B2 B3 B4 B5 B6 B7].
  constructor; rewrite omap_app; try (eapply changed_app; eassumption).
  rewrite last_default_app, <- A7. exact B7.
Qed.

Lemma observed_settings L v log events v' : l1_observed L v log events v' ->
  forall evs, settings_told evs v -> settings_told (evs ++ events) v'.
Proof.
  induction 1 as [v|v x c i v1 log events v' Ht H IH|v x c e v1 log events v' Ht H IH|v o t log events v' Ht H IH];
    intros evs Hs.
  - rewrite app_nil_r. exact Hs.
  - apply transact_ok, run_settings_step in Ht. rewrite app_assoc. apply IH. eapply told_step; eassumption.
  - apply transact_err in Ht as [_ ->]. now apply IH.
  - apply IH. destruct Hs; constructor; assumption.
Qed.

Lemma run_settings_told L log events v : observed_run L log events v -> settings_told events v.
Proof.
  intros (prove & owner & ta & auctioneer & staking & verifier & md & vkey & genesis & v0 & later & Hi & -> & H).
  eapply observed_settings; [exact H|]. unfold l1_initialize in Hi. destruct (_ || _); [discriminate|].
  injection Hi as <-. constructor; cbn; repeat constructor.
Qed.

(** ** Blocks *)

Definition forks_ok (events : list l1_event) : Prop :=
  forall i n a b, events !! i = Some (EvFork n a b) -> exists old new, events !! S i = Some (EvBlock n old new).

Lemma forks_app a b : forks_ok a -> forks_ok b -> forks_ok (a ++ b).
Proof.
  intros Ha Hb i n x y H. apply lookup_app_Some in H as [H|[Hl H]].
  - destruct (Ha _ _ _ _ H) as (old & new & Hn). exists old, new. now apply lookup_app_l_Some.
  - destruct (Hb _ _ _ _ H) as (old & new & Hn). exists old, new.
    rewrite lookup_app_r by lia. replace (S i - length a)%nat with (S (i - length a)) by lia. exact Hn.
Qed.

Lemma forks_none events : omap vkey_change events = [] -> forks_ok events.
Proof.
  intros H i n a b Hi. exfalso. apply elem_of_list_lookup_2 in Hi.
  assert (Hin : (a, b) ∈ omap vkey_change events) by (apply elem_of_list_omap; eexists; split; [exact Hi|reflexivity]).
  rewrite H in Hin. now apply elem_of_nil in Hin.
Qed.

Lemma blocks_same evs events v v' : blocks_told evs v ->
  va_block v' = va_block v -> va_roots v' = va_roots v ->
  omap block_made events = [] -> omap root_change events = [] -> omap vkey_change events = [] ->
  blocks_told (evs ++ events) v'.
Proof.
  intros [B1 B2 B3 B4] E1 E2 H1 H2 H3. constructor; rewrite ?omap_app, ?H1, ?H2, ?app_nil_r.
  - now rewrite E1.
  - intros k n root Hk. rewrite E2. now apply B2.
  - unfold va_root in *. now rewrite E1, E2.
  - apply forks_app; [exact B4|now apply forks_none].
Qed.

Lemma blocks_new evs events v v' root :
  blocks_told evs v -> va_block v' = va_block v + 1 -> va_roots v' = <[va_block v + 1 := root]> (va_roots v) ->
  omap block_made events = [(va_block v + 1, root)] -> omap root_change events = [(va_root v, root)] ->
  forks_ok events -> blocks_told (evs ++ events) v'.
Proof.
  intros [B1 B2 B3 B4] E1 E2 H1 H2 H3. constructor; rewrite ?omap_app, ?H1, ?H2.
  - rewrite app_length. cbn [length]. lia.
  - intros k n r Hk. rewrite E2. apply lookup_app_Some in Hk as [Hk|[Hl Hk]].
    + destruct (B2 _ _ _ Hk) as [-> Hr]. split; [reflexivity|]. apply lookup_lt_Some in Hk.
      rewrite lookup_insert_ne by lia. exact Hr.
    + apply list_lookup_singleton_Some in Hk as [Hk Hp]. injection Hp as <- <-. split; [lia|]. apply lookup_insert.
  - eapply changed_app; [exact B3|]. replace (va_root v') with root by (unfold va_root; rewrite E1, E2, lookup_insert; reflexivity). apply changed_one.
  - now apply forks_app.
Qed.

Lemma run_blocks L x c v v' evs : l1_run L x c v = Ok v' -> blocks_told evs v -> blocks_told (evs ++ l1_events L x c v) v'.
Proof.
  intros H Hb. destruct c as [amount|from amount|prover owner bips|b proof|vkey root|c]; cbn [l1_run l1_events] in *.
  - unfold l1_deposit in H. l1_inv. apply deposit_from_ok in H as (_ & v1 & t & H & _ & ->).
    unfold create_transaction in H. l1_inv. subst v1. (eapply blocks_same; [exact Hb|reflexivity..]).
  - apply permit_ok in H as (_ & [(_ & H)|(_ & H)]); apply deposit_from_ok in H as (_ & v1 & t & H & _ & ->);
      unfold create_transaction in H; l1_inv; subst v1; (eapply blocks_same; [exact Hb|reflexivity..]).
  - unfold l1_create_prover in H. l1_inv. unfold create_transaction in H. l1_inv. subst v'. (eapply blocks_same; [exact Hb|reflexivity..]).
  - apply step_ok in H as (p & Hp & H). apply handle_block in H as (A & B & _). unfold step_events.
    rewrite (sa_decoded _ _ _ _ _ _ Hp).
    eapply (blocks_new _ _ v v' (pv_new_root p)); [exact Hb|exact A|exact B|..].
    + rewrite omap_receipts_app by receipts_none. reflexivity.
    + rewrite omap_receipts_app by receipts_none. cbn. now rewrite (sa_old_root _ _ _ _ _ _ Hp).
    + apply forks_none. rewrite omap_receipts_app by receipts_none. reflexivity.
  - unfold l1_fork in H. l1_inv. subst v'. eapply (blocks_new _ _ v _ root); [exact Hb|reflexivity..|].
    intros i n a b Hi. destruct i as [|[|[|]]]; cbn in Hi; try discriminate. injection Hi as <- <- <-.
    exists (va_root v), root. reflexivity.
  - unfold l1_admin in H. l1_inv.
    destruct c; repeat match type of H with context [if ?b then _ else _] => destruct b eqn:? end;
      l1_inv; subst; (eapply blocks_same; [exact Hb|reflexivity..]).
Qed.

Lemma observed_blocks L v log events v' : l1_observed L v log events v' ->
  forall evs, blocks_told evs v -> blocks_told (evs ++ events) v'.
Proof.
  induction 1 as [v|v x c i v1 log events v' Ht H IH|v x c e v1 log events v' Ht H IH|v o t log events v' Ht H IH];
    intros evs Hs.
  - rewrite app_nil_r. exact Hs.
  - apply transact_ok in Ht. rewrite app_assoc. apply IH. eapply run_blocks; eassumption.
  - apply transact_err in Ht as [_ ->]. now apply IH.
  - apply IH. destruct Hs; constructor; assumption.
Qed.

Lemma run_blocks_told L log events v : observed_run L log events v -> blocks_told events v.
Proof.
  intros (prove & owner & ta & auctioneer & staking & verifier & md & vkey & genesis & v0 & later & Hi & -> & H).
  eapply observed_blocks; [exact H|]. unfold l1_initialize in Hi. destruct (_ || _); [discriminate|].
  injection Hi as <-. constructor.
  - reflexivity.
  - intros [|k] n root Hk; cbn in Hk; [|discriminate]. injection Hk as <- <-. split; [reflexivity|]. apply lookup_singleton.
  - cbn. unfold va_root. cbn. apply changed_one.
  - intros i n a b Hi. do 6 (destruct i as [|i]; [try discriminate|]).
    + cbn in Hi. injection Hi as <- <- <-. exists 0, genesis. reflexivity.
    + destruct i as [|i]; discriminate.
Qed.

(** ** The queue *)

Definition announcement (n : nat) (q : queued) : N * sol_variant * bytes := (N.of_nat n + 1, queued_variant q, queued_data q).
Definition outcome (r : sol_receipt) : N * tx_status * sol_variant * bytes :=
  (sr_tx_id r, sr_status r, sr_variant r, sr_action r).

Lemma onchain_finalized r v v' : handle_onchain_receipt r v = Ok v' ->
  va_finalized v + 1 = sr_tx_id r /\ va_finalized v' = va_finalized v + 1 /\
  (sr_status r = StCompleted \/ sr_status r = StReverted).
Proof.
  unfold handle_onchain_receipt. intros H. l1_inv.
  destruct (N.eqb_spec (va_finalized v + 1) (sr_tx_id r)) as [He|]; [cbn [negb] in H|discriminate].
  split; [exact He|].
  destruct (sr_status r); try discriminate; l1_inv; destruct (sr_variant r); l1_inv; subst; auto.
Qed.

Lemma receipts_settled L x rs : forall v v', handle_receipts L x rs v = Ok v' ->
  omap settled (receipts_events L x rs v) = map outcome (onchain rs).
Proof.
  induction rs as [|r rs IH]; intros v v' H; cbn [handle_receipts receipts_events] in *; [reflexivity|].
  l1_inv. rewrite H0, omap_app, (IH _ _ H), onchain_cons.
  destruct (N.eqb_spec (sr_tx_id r) u64_max) as [Hm|Hm]; cbn [negb] in *.
  - replace (omap settled (offchain_events r)) with (@nil (N * tx_status * sol_variant * bytes)); [reflexivity|].
    unfold offchain_events. destruct (sr_status r); [destruct (l1_decode_withdraw _); reflexivity..|].
    cbn. rewrite Hm. reflexivity.
  - cbn [map]. apply onchain_finalized in H0 as (He & _ & Hs). change (outcome r :: map outcome (onchain rs)) with ([outcome r] ++ map outcome (onchain rs)).
    f_equal. unfold onchain_events, outcome. rewrite He. change u64_max with (2 ^ 64 - 1) in Hm.
    destruct Hs as [-> | ->]; cbn [omap list_omap settled]; [reflexivity|].
    destruct (N.eqb_spec (sr_tx_id r) (2 ^ 64 - 1)); [congruence|reflexivity].
Qed.

Lemma run_announced L x c i v v' (C : list queued) :
  l1_run L x c v = Ok v' -> va_current v = N.of_nat (length C) ->
  omap announced (l1_events L x c v) = imap (fun n => announcement (length C + n)) (created [LAccepted x c i]).
Proof.
  intros H Hc. unfold created. cbn [flat_map]. rewrite app_nil_r.
  destruct c as [amount|from amount|prover owner bips|b proof|vkey root|c]; cbn [l1_run l1_events queued_by] in *.
  1-3: cbn; unfold announcement; rewrite Hc, Nat.add_0_r; reflexivity.
  - apply step_ok in H as (p & Hp & H). unfold step_events. rewrite (sa_decoded _ _ _ _ _ _ Hp).
    rewrite omap_receipts_app by receipts_none. reflexivity.
  - reflexivity.
  - destruct c; reflexivity.
Qed.

Lemma run_settled L x c i v v' : l1_run L x c v = Ok v' ->
  omap settled (l1_events L x c v) = map outcome (finalised L [LAccepted x c i]).
Proof.
  intros H. unfold finalised. cbn [flat_map]. rewrite app_nil_r.
  destruct c as [amount|from amount|prover owner bips|b proof|vkey root|c]; cbn [l1_run l1_events] in *;
    try reflexivity.
  - apply step_ok in H as (p & Hp & H). unfold step_events. rewrite (sa_decoded _ _ _ _ _ _ Hp).
    rewrite omap_app, (receipts_settled _ _ _ _ _ H). cbn. now rewrite app_nil_r.
  - destruct c; reflexivity.
Qed.

Lemma imap_announcement_app a b :
  imap announcement (a ++ b) = imap announcement a ++ imap (fun n => announcement (length a + n)) b.
Proof. rewrite imap_app. reflexivity. Qed.

Lemma observed_queue L v log events v' : l1_env_ok L -> l1_observed L v log events v' -> Forall typed_entry log ->
  forall pre evs, Forall typed_entry pre -> queue_faithful (created pre) (finalised L pre) v ->
  omap announced evs = imap announcement (created pre) -> omap settled evs = map outcome (finalised L pre) ->
  queue_faithful (created (pre ++ log)) (finalised L (pre ++ log)) v' /\
  omap announced (evs ++ events) = imap announcement (created (pre ++ log)) /\
  omap settled (evs ++ events) = map outcome (finalised L (pre ++ log)).
Proof.
  intros HL H. induction H as [v|v x c i v1 log events v' Ht H IH|v x c e v1 log events v' Ht H IH|v o t log events v' Ht H IH];
    intros Hty pre evs Hpre Hq Ha Hs.
  - rewrite !app_nil_r. auto.
  - apply Forall_cons in Hty as [Hc Hty]. apply transact_ok in Ht.
    replace (pre ++ LAccepted x c i :: log) with ((pre ++ [LAccepted x c i]) ++ log) by (now rewrite <- app_assoc).
    rewrite app_assoc. apply IH; [exact Hty|apply Forall_app; split; [exact Hpre|now constructor]|..].
    + rewrite created_app, finalised_app.
      exact (proj1 (run_queue L x c i v v1 _ _ HL Hc (created_typed _ Hpre) Hq Ht)).
    + rewrite omap_app, created_app, imap_announcement_app, Ha. f_equal.
      apply (run_announced L x c i v v1); [exact Ht|]. now destruct Hq.
    + rewrite omap_app, finalised_app, map_app, Hs. f_equal. now apply (run_settled L x c i v v1).
  - apply Forall_cons in Hty as [Hc Hty]. apply transact_err in Ht as [_ ->].
    replace (pre ++ LReverted x c e :: log) with ((pre ++ [LReverted x c e]) ++ log) by (now rewrite <- app_assoc).
    apply IH; rewrite ?created_app, ?finalised_app; cbn; rewrite ?app_nil_r; try assumption.
    apply Forall_app; split; [exact Hpre|now constructor].
  - apply Forall_cons in Hty as [Hc Hty].
    replace (pre ++ LToken o :: log) with ((pre ++ [LToken o]) ++ log) by (now rewrite <- app_assoc).
    apply IH; rewrite ?created_app, ?finalised_app; cbn; rewrite ?app_nil_r; try assumption.
    + apply Forall_app; split; [exact Hpre|now constructor].
    + eapply queue_same; [exact Hq|reflexivity..].
Qed.

Lemma told_queue C F evs v : queue_faithful C F v -> omap announced evs = imap announcement C ->
  omap settled evs = map outcome F -> queue_told evs v.
Proof.
  intros [H1 H2 H3 H4 H5 H6] Ha Hs. constructor.
  - rewrite Ha, imap_length. now rewrite H1.
  - rewrite Hs, map_length. now rewrite H2.
  - lia.
  - intros n id variant data Hn. rewrite Ha, list_lookup_imap in Hn. destruct (C !! n) as [q|] eqn:Hq; [|discriminate].
    cbn in Hn. unfold announcement in Hn. injection Hn as <- <- <-. split; [reflexivity|].
    rewrite (H4 _ _ Hq). do 2 f_equal. unfold status_at, status_told. rewrite Hs, list_lookup_fmap.
    destruct (F !! n); reflexivity.
  - intros n id status variant data Hn. rewrite Hs, list_lookup_fmap in Hn. destruct (F !! n) as [r|] eqn:Hr; [|discriminate].
    cbn in Hn. unfold outcome in Hn. injection Hn as <- <- <- <-.
    destruct (H6 _ _ Hr) as (A & _ & q & rest & Hq & Hv & Hd). split; [exact A|].
    exists (queued_data q), rest. split; [|exact Hd]. rewrite Ha, list_lookup_imap, Hq. cbn. unfold announcement.
    now rewrite A, Hv.
Qed.

Lemma run_queue_told L log events v : l1_env_ok L -> observed_run L log events v -> Forall typed_entry log ->
  queue_told events v /\ map (fun a => (a.1.2, a.2)) (omap announced events)
    = map (fun q => (queued_variant q, queued_data q)) (created log).
Proof.
  intros HL (prove & owner & ta & auctioneer & staking & verifier & md & vkey & genesis & v0 & later & Hi & -> & H) Hty.
  destruct (observed_queue L v0 log later v HL H Hty [] _ (Forall_nil_2 _) (initial_queue _ _ _ _ _ _ _ _ _ _ _ Hi)
    (eq_refl : omap announced (initialize_events owner auctioneer staking verifier md vkey genesis) = _) eq_refl)
    as (A & B & D).
  split; [exact (told_queue _ _ _ _ A B D)|]. rewrite B. cbn [app].
  generalize (created log). intros C. apply list_eq. intros n.
  rewrite !list_lookup_fmap, list_lookup_imap. destruct (C !! n); reflexivity.
Qed.

(** ** Money *)

Lemma sum_of_receipt (f : l1_event -> N) l : (forall e, of_receipt e -> f e = 0) -> Forall of_receipt l -> sum f l = 0.
Proof.
  intros Hf. unfold sum. induction 1 as [|e l He _ IH]; [reflexivity|]. cbn [fold_right]. rewrite (Hf e He), IH. reflexivity.
Qed.

Lemma receipts_out L x rs : forall v v', handle_receipts L x rs v = Ok v' ->
  sum went_out (receipts_events L x rs v) = sum (paid L x) rs /\
  forall a, sum (went_to L x a) (receipts_events L x rs v) = sum (received L x a) rs.
Proof.
  induction rs as [|r rs IH]; intros v v' H; cbn [handle_receipts receipts_events] in *; [split; reflexivity|].
  l1_inv. destruct (IH _ _ H) as [IH1 IH2]. rewrite H0.
  assert (Hr : let es := if negb (sr_tx_id r =? u64_max) then onchain_events r v else offchain_events r in
    sum went_out es = paid L x r /\ forall a, sum (went_to L x a) es = received L x a r).
  { unfold paid, received, payment. change (2 ^ 64 - 1) with u64_max. cbv zeta. destruct (sr_tx_id r =? u64_max); cbn [negb] in H0 |- *.
    - unfold handle_offchain_receipt in H0. unfold offchain_events. destruct (sr_status r); try discriminate; [|split; reflexivity].
      destruct (sr_variant r); try discriminate. l1_inv.
      match goal with Hd : l1_decode_withdraw _ = Ok ?w |- _ => rewrite Hd, (decode_withdrawal _ _ Hd) end.
      cbn. split; [lia|]. intros a. destruct (_ =? a); lia.
    - unfold onchain_events. destruct (sr_status r); split; reflexivity. }
  destruct Hr as [Hr1 Hr2]. split; [|intros a]; rewrite sum_app; [rewrite Hr1, IH1|rewrite Hr2, IH2]; reflexivity.
Qed.

Lemma call_money L x c v v' : l1_transact L x c v = (v', None) ->
  let events := l1_events L x c v in
  forall a, tk_balance (va_prove v') a + sum (came_from a) events + (if a =? le_self L then sum went_out events else 0)
    = tk_balance (va_prove v) a + (if a =? le_self L then sum came_in events else 0) + sum (went_to L x a) events.
Proof.
  intros H events a. subst events. destruct c as [amount|from amount|prover owner bips|b proof|vkey root|c]; cbn [l1_events].
  - apply deposit_exact in H as (_ & _ & Hp). pose proof (dp_balances _ _ _ _ _ _ Hp a) as Hb. cbn.
    rewrite (N.eqb_sym (cx_sender x) a). destruct (a =? cx_sender x), (a =? le_self L); lia.
  - apply permit_exact in H as (_ & _ & _ & Hp). pose proof (dp_balances _ _ _ _ _ _ Hp a) as Hb. cbn.
    rewrite (N.eqb_sym from a). destruct (a =? from), (a =? le_self L); lia.
  - apply transact_ok in H. cbn [l1_run] in H. unfold l1_create_prover in H. l1_inv. unfold create_transaction in H. l1_inv. subst v'.
    cbn. destruct (a =? le_self L); lia.
  - apply transact_ok in H. cbn [l1_run] in H. apply step_ok in H as (p & Hp & H). unfold step_events.
    rewrite (sa_decoded _ _ _ _ _ _ Hp). rewrite !sum_app. pose proof (receipts_out _ _ _ _ _ H) as [Ho Ht].
    pose proof (handle_payments _ _ _ _ _ H a) as Hb. rewrite Ho, Ht.
    rewrite (sum_of_receipt (came_from a) _ ltac:(receipts_none) (receipts_of_receipt _ _ _ _)).
    rewrite (sum_of_receipt came_in _ ltac:(receipts_none) (receipts_of_receipt _ _ _ _)). cbn in Hb |- *.
    destruct (a =? le_self L); lia.
  - apply transact_ok in H. cbn [l1_run] in H. unfold l1_fork in H. l1_inv. subst v'. cbn. destruct (a =? le_self L); lia.
  - apply transact_ok in H. cbn [l1_run] in H. unfold l1_admin in H. l1_inv.
    destruct c; repeat match type of H with context [if ?b then _ else _] => destruct b eqn:? end;
      l1_inv; subst; cbn; destruct (a =? le_self L); lia.
Qed.

Lemma deposit_token_safe L from amount v v' : token_safe L (va_prove v) -> deposit_from L from amount v = Ok v' ->
  token_safe L (va_prove v').
Proof.
  intros Ht H. apply deposit_from_ok in H as (_ & v1 & t & H & Htr & ->). unfold create_transaction in H. l1_inv. subst v1.
  cbn [va_set_queue va_prove] in Htr. cbn [va_set_prove va_prove].
  unfold tk_transfer_from in Htr. destruct (tk_spend _ _ _ _) as [t1|] eqn:Hs; [|discriminate].
  apply (spend_safe L) in Hs as (Hs & _); [|exact Ht]. apply TokenFacts.transfer_ok in Htr as (Ha & _).
  eapply allowances_safe; eassumption.
Qed.

Lemma withdraw_token_safe L x to amount v v' : token_safe L (va_prove v) -> process_withdraw L x to amount v = Ok v' ->
  token_safe L (va_prove v').
Proof.
  intros Ht H. unfold process_withdraw in H. destruct (cx_is_prover x to); l1_inv; subst v'; cbn [va_set_prove va_prove].
  - match goal with H : tk_transfer_from _ _ _ _ _ = Ok _ |- _ => rename H into Htr end.
    unfold tk_transfer_from in Htr. destruct (tk_spend _ _ _ _) as [t1|] eqn:Hs; [|discriminate].
    apply (spend_safe L) in Hs as (Hs & _); [|exact Ht]. apply TokenFacts.transfer_ok in Htr as (Ha & _).
    eapply allowances_safe; eassumption.
  - match goal with H : tk_transfer _ _ _ _ = Ok _ |- _ => apply TokenFacts.transfer_ok in H as (Ha & _) end.
    eapply allowances_safe; eassumption.
Qed.

Lemma receipts_token_safe L x rs : forall v v', token_safe L (va_prove v) -> handle_receipts L x rs v = Ok v' ->
  token_safe L (va_prove v').
Proof.
  induction rs as [|r rs IH]; intros v v' Ht H; cbn [handle_receipts] in H; l1_inv; [subst; exact Ht|].
  refine (IH _ _ _ H). destruct (negb _); [apply onchain_token in H0; now rewrite H0|].
  unfold handle_offchain_receipt in H0. destruct (sr_status r); try discriminate.
  - destruct (sr_variant r); try discriminate. l1_inv. eapply withdraw_token_safe; eassumption.
  - assert (v = x0) as <- by congruence. exact Ht.
Qed.

(** A call of the contract does not give it away. *)
Lemma call_holdings L x c i v v' : addresses_ok L -> own_actions L (LAccepted x c i) -> token_safe L (va_prove v) ->
  l1_transact L x c v = (v', None) ->
  token_safe L (va_prove v') /\
  tk_balance (va_prove v) (le_self L) + sum came_in (l1_events L x c v)
  <= tk_balance (va_prove v') (le_self L) + sum went_out (l1_events L x c v).
Proof.
  intros HA Ho Ht H. pose proof (call_money _ _ _ _ _ H (le_self L)) as Hm. cbv zeta in Hm. rewrite N.eqb_refl in Hm.
  destruct c as [amount|from amount|prover owner bips|b proof|vkey root|c].
  - cbn in Hm, Ho |- *. rewrite (proj2 (N.eqb_neq _ _) Ho) in Hm. split; [|lia].
    apply transact_ok in H. cbn [l1_run] in H. unfold l1_deposit in H. l1_inv. eapply deposit_token_safe; eassumption.
  - apply transact_ok in H. cbn [l1_run] in H. apply permit_ok in H as (_ & [(Hal & H)|(Hv & H)]).
    + split; [eapply deposit_token_safe; eassumption|]. cbn in Hm |- *. destruct (N.eqb_spec from (le_self L)) as [->|]; [|lia].
      rewrite (Ht (le_self L)) in Hal. destruct (N.eqb_spec (le_self L) (le_iprove L)); [destruct HA; congruence|]. lia.
    + cbn in Ho. specialize (Ho Hv). split.
      * eapply deposit_token_safe; [|exact H]. cbn [va_set_prove va_prove]. apply approve_safe; assumption.
      * cbn in Hm |- *. rewrite (proj2 (N.eqb_neq _ _) Ho) in Hm. lia.
  - split; [|cbn in Hm |- *; lia]. apply transact_ok in H. cbn [l1_run] in H. unfold l1_create_prover in H. l1_inv.
    unfold create_transaction in H. l1_inv. subst v'. exact Ht.
  - apply transact_ok in H. cbn [l1_run] in H. apply step_ok in H as (p & Hp & H). split; [eapply receipts_token_safe; [|exact H]; exact Ht|].
    assert (Hz : sum (came_from (le_self L)) (l1_events L x (CStep b proof) v) = 0).
    { cbn [l1_events]. unfold step_events. rewrite (sa_decoded _ _ _ _ _ _ Hp), sum_app.
      rewrite (sum_of_receipt (came_from _) _ ltac:(receipts_none) (receipts_of_receipt _ _ _ _)). reflexivity. }
    lia.
  - split; [|cbn in Hm |- *; lia]. apply transact_ok in H. cbn [l1_run] in H. unfold l1_fork in H. l1_inv. subst v'. exact Ht.
  - assert (Hz : sum (came_from (le_self L)) (l1_events L x (CAdmin c) v) = 0) by (destruct c; reflexivity).
    split; [|lia]. apply transact_ok in H. cbn [l1_run] in H. unfold l1_admin in H. l1_inv.
    destruct c; repeat match type of H with context [if ?b then _ else _] => destruct b eqn:? end;
      l1_inv; subst; exact Ht.
Qed.

Lemma observed_holdings L v log events v' : addresses_ok L -> l1_observed L v log events v' ->
  Forall (own_actions L) log -> token_safe L (va_prove v) ->
  tk_balance (va_prove v) (le_self L) + sum came_in events <= tk_balance (va_prove v') (le_self L) + sum went_out events.
Proof.
  intros HA H. induction H as [v|v x c i v1 log events v' Ht H IH|v x c e v1 log events v' Ht H IH|v o t log events v' Ht H IH];
    intros Ho Hs.
  - cbn. lia.
  - apply Forall_cons in Ho as [Hc Ho]. destruct (call_holdings L x c i v v1 HA Hc Hs Ht) as [Hs1 Hm].
    specialize (IH Ho Hs1). rewrite !sum_app. lia.
  - apply Forall_cons in Ho as [_ Ho]. apply transact_err in Ht as [_ ->]. now apply IH.
  - apply Forall_cons in Ho as [Hc Ho]. destruct (token_op_safe L v o t Hc Hs Ht) as [Hs1 Hm].
    specialize (IH Ho Hs1). cbn [va_set_prove va_prove] in IH. lia.
Qed.

(** ** Every history has its events *)

Lemma history_observed L v log v' : l1_history L v log v' <-> exists events, l1_observed L v log events v'.
Proof.
  split.
  - induction 1 as [v|v x c i v1 log v' Ht H [ev IH]|v x c e v1 log v' Ht H [ev IH]|v o t log v' Ht H [ev IH]];
      eexists; econstructor; eassumption.
  - intros [events H].
    induction H; econstructor; eassumption.
Qed.

Lemma observed_unique L v log ev1 v1 : l1_observed L v log ev1 v1 ->
  forall ev2 v2, l1_observed L v log ev2 v2 -> ev1 = ev2 /\ v1 = v2.
Proof.
  induction 1 as [v|v x c i w log events v' Ht H IH|v x c e w log events v' Ht H IH|v o t log events v' Ht H IH];
    intros ev2 v2 H2; inversion H2; subst.
  - auto.
  - match goal with Ha : l1_transact _ _ _ _ = (?a, None) |- _ => assert (a = w) as -> by congruence end.
    match goal with Ha : l1_observed _ w _ _ _ |- _ => apply IH in Ha as [-> ->] end. auto.
  - match goal with Ha : l1_transact _ _ _ _ = (?a, Some _) |- _ => assert (a = w) as -> by congruence end.
    match goal with Ha : l1_observed _ w _ _ _ |- _ => apply IH in Ha as [-> ->] end. auto.
  - match goal with Ha : run_token_op _ _ = Ok ?a |- _ => assert (a = t) as -> by congruence end.
    match goal with Ha : l1_observed _ _ _ ev2 _ |- _ => apply IH in Ha as [-> ->] end. auto.
Qed.

(** ** What calls return *)

Lemma call_returns L x c v v' : l1_transact L x c v = (v', None) ->
  match l1_returns L c v with
  | ONothing => omap announced (l1_events L x c v) = [] /\ omap block_made (l1_events L x c v) = []
  | OTransaction id => exists variant data, omap announced (l1_events L x c v) = [(id, variant, data)] /\ id = va_current v'
  | OBlock n old new => omap block_made (l1_events L x c v) = [(n, new)] /\ omap root_change (l1_events L x c v) = [(old, new)] /\
      n = va_block v' /\ old = va_root v /\ new = va_root v'
  end.
Proof.
  intros H. apply transact_ok in H.
  destruct c as [amount|from amount|prover owner bips|b proof|vkey root|c]; cbn [l1_run l1_events l1_returns] in *.
  - unfold l1_deposit in H. l1_inv. apply deposit_from_ok in H as (_ & v1 & t & H & _ & ->).
    unfold create_transaction in H. l1_inv. subst v1. do 2 eexists. split; reflexivity.
  - apply permit_ok in H as (_ & [(_ & H)|(_ & H)]); apply deposit_from_ok in H as (_ & v1 & t & H & _ & ->);
      unfold create_transaction in H; l1_inv; subst v1; do 2 eexists; split; reflexivity.
  - unfold l1_create_prover in H. l1_inv. unfold create_transaction in H. l1_inv. subst v'. do 2 eexists. split; reflexivity.
  - apply step_ok in H as (p & Hp & H). apply handle_block in H as (A & B & _). unfold step_events.
    rewrite (sa_decoded _ _ _ _ _ _ Hp). rewrite !omap_receipts_app by receipts_none.
    split; [reflexivity|]. split; [reflexivity|]. split; [now rewrite A|]. split; [exact (sa_old_root _ _ _ _ _ _ Hp)|].
    unfold va_root. rewrite A, B. cbn [va_set_block va_block va_roots]. now rewrite lookup_insert.
  - unfold l1_fork in H. l1_inv. subst v'. repeat split. unfold va_root. cbn [va_set_block va_block va_roots]. now rewrite lookup_insert.
  - destruct c; split; reflexivity.
Qed.
