(** Checkpoints, and the votes of $iPROVE beside its balances. *)
From Verif Require Export Governor StakingRights.
From Coq Require Import Lia ZifyBool ZifyN ZifyNat.
Open Scope N_scope.

(** ** Checkpoints *)

(** Times increase and are before [b]. *)
Inductive trace : N -> checkpoints -> Prop :=
| tr_nil b : trace b []
| tr_snoc b l k v : trace k l -> k < b -> trace b (l ++ [(k, v)]).

Lemma trace_mono b b' l : trace b l -> b <= b' -> trace b' l.
Proof. intros H Hb. destruct H as [|b l k v H Hk]; constructor; [exact H|lia]. Qed.

Lemma trace_below b l : trace b l -> Forall (fun c => fst c < b) l.
Proof.
  induction 1 as [|b l k v _ IH Hk]; [constructor|]. apply Forall_app. split.
  - eapply Forall_impl; [exact IH|]. cbn. intros [? ?]. cbn. lia.
  - repeat constructor. exact Hk.
Qed.

Lemma lookup_snoc t k w l :
  Forall (fun c => fst c < k) l -> lookup_at t (l ++ [(k, w)]) = if k <=? t then w else lookup_at t l.
Proof.
  induction l as [|[a b] rest IH]; intros H; [cbn [app lookup_at]; reflexivity|].
  apply Forall_cons in H as [Ha H]. cbn [fst] in Ha. specialize (IH H).
  cbn [app lookup_at]. destruct (N.leb_spec a t) as [Hat|Hat].
  - destruct rest as [|[k' b'] rest'].
    + cbn [app]. destruct (k <=? t) eqn:E; [|reflexivity]. cbn [lookup_at]. now rewrite E.
    + cbn [app] in *. destruct (N.leb_spec k' t) as [Hk|Hk]; [exact IH|].
      apply Forall_cons in H as [Hk' _]. cbn [fst] in Hk'. destruct (N.leb_spec k t); [lia|reflexivity].
  - destruct (N.leb_spec k t); [lia|reflexivity].
Qed.

Lemma lookup_late b l t : trace b l -> b <= t + 1 -> lookup_at t l = latest l.
Proof.
  intros H Hb. destruct H as [|b l k v H Hk]; [reflexivity|].
  rewrite lookup_snoc by (apply trace_below; exact H). unfold latest. rewrite last_snoc.
  destruct (N.leb_spec k t); [reflexivity|lia].
Qed.

Lemma push_ok now v l : trace (now + 1) l ->
  exists l', push now v l = Some l' /\ trace (now + 1) l' /\
    forall t, lookup_at t l' = if now <=? t then v else lookup_at t l.
Proof.
  intros H. inversion H as [|b l0 k w H0 Hk]; subst; unfold push.
  - exists [(now, v)]. split; [reflexivity|]. split; [|reflexivity].
    apply (tr_snoc (now + 1) [] now v); [constructor|lia].
  - rewrite last_snoc. destruct (N.ltb_spec now k); [lia|]. destruct (N.eqb_spec k now) as [->|Hne].
    + rewrite app_length. cbn [length]. replace (length l0 + 1 - 1)%nat with (length l0) by lia. rewrite take_app.
      exists (l0 ++ [(now, v)]). split; [reflexivity|]. split; [constructor; [exact H0|lia]|].
      intros t. rewrite !lookup_snoc by (apply trace_below; exact H0). now destruct (now <=? t).
    + eexists. split; [reflexivity|]. split; [constructor; [|lia]; constructor; [exact H0|lia]|].
      intros t. rewrite lookup_snoc; [reflexivity|]. apply trace_below. constructor; [exact H0|lia].
Qed.

(** ** The balances of $iPROVE that a movement changes *)

Definition ibal (b : bank) (a : N) : N := tk_balance (bk_iprove b) a.
Definition at_ends (K : staking_env) (P : gset N) (a : N) : Prop := a = 0 \/ a = ke_self K \/ a ∈ P.

Record mv_ok (K : staking_env) (P : gset N) (m : movement) (b b' : bank) : Prop := {
  mo_from : at_ends K P (mv_from m);
  mo_to : at_ends K P (mv_to m);
  mo_ne : mv_from m <> mv_to m;
  mo_bal : forall x, x <> 0 -> ibal b' x + (if x =? mv_from m then mv_amount m else 0)
                             = ibal b x + (if x =? mv_to m then mv_amount m else 0);
  mo_zero : ibal b' 0 = ibal b 0;
  mo_supply : bk_isupply b' + (if mv_to m =? 0 then mv_amount m else 0)
              = bk_isupply b + (if mv_from m =? 0 then mv_amount m else 0);
  mo_total : i_total_ok b'
}.

Definition same_i (b b' : bank) : Prop := (forall x, ibal b' x = ibal b x) /\ bk_isupply b' = bk_isupply b.

Inductive moves_ok (K : staking_env) (P : gset N) : list movement -> bank -> bank -> Prop :=
| ms_nil b b' : same_i b b' -> moves_ok K P [] b b'
| ms_cons m l b b1 b' : mv_ok K P m b b1 -> moves_ok K P l b1 b' -> moves_ok K P (m :: l) b b'.

Lemma same_i_refl b : same_i b b.
Proof. split; reflexivity. Qed.
Lemma moves_before K P l b b0 b' : same_i b b0 -> moves_ok K P l b0 b' -> moves_ok K P l b b'.
Proof.
  intros [H1 H2] H. destruct H as [b0 b' [E1 E2]|m l b0 b1 b' [] H].
  - constructor. split; [intros x; rewrite E1; apply H1|congruence].
  - econstructor; [|exact H]. split; try assumption; intros; rewrite <- ?H1, <- ?H2; auto.
Qed.
Lemma moves_app K P l l' b b1 b' : moves_ok K P l b b1 -> moves_ok K P l' b1 b' -> moves_ok K P (l ++ l') b b'.
Proof.
  induction 1 as [b b1 Hs|m l b b0 b1 Hm _ IH]; intros H; cbn [app]; [eapply moves_before; eassumption|].
  econstructor; [exact Hm|auto].
Qed.
Lemma moves_one K P m b b' : mv_ok K P m b b' -> moves_ok K P [m] b b'.
Proof. intros H. econstructor; [exact H|]. constructor. apply same_i_refl. Qed.
Lemma moves_after K P l b b0 b' : moves_ok K P l b b0 -> same_i b0 b' -> moves_ok K P l b b'.
Proof. intros H Hs. rewrite <- (app_nil_r l). eapply moves_app; [exact H|]. now constructor. Qed.

(** ** Votes beside balances *)

(** What the delegates and checkpoints are when the provers are [P] and the balances those of [b]; [past] and
    [past_supply] are the values at times before [now]. *)
Record votes_ok (K : staking_env) (now : N) (past : N -> N -> N) (past_supply : N -> N)
    (P : gset N) (b : bank) (v : votes) : Prop := {
  vo_self : delegate_of v (ke_self K) = 0;
  vo_zero : delegate_of v 0 = 0;
  vo_prover : forall p, p ∈ P -> delegate_of v p = p;
  vo_trace : forall a, trace (now + 1) (votes_trace v a);
  vo_total_trace : trace (now + 1) (vt_total v);
  vo_votes : forall t a, lookup_at t (votes_trace v a)
    = if now <=? t then (if bool_decide (a ∈ P) then ibal b a else 0) else past t a;
  vo_supply : forall t, lookup_at t (vt_total v) = if now <=? t then bk_isupply b else past_supply t
}.

Lemma votes_same K now past ps P b b' v :
  same_i b b' -> votes_ok K now past ps P b v -> votes_ok K now past ps P b' v.
Proof.
  intros [H1 H2] []. split; try assumption.
  - intros t a. rewrite H1. apply vo_votes0.
  - intros t. rewrite H2. apply vo_supply0.
Qed.

(** A change of one delegate's votes. *)
Lemma change_push f now val d v :
  d <> 0 -> (forall a, trace (now + 1) (votes_trace v a)) ->
  f (votes_trace v d) = push now val (votes_trace v d) ->
  exists v', change_votes f d v = Some v' /\ vt_delegates v' = vt_delegates v /\ vt_total v' = vt_total v /\
    (forall a, trace (now + 1) (votes_trace v' a)) /\
    forall t a, lookup_at t (votes_trace v' a) = if (a =? d) && (now <=? t) then val else lookup_at t (votes_trace v a).
Proof.
  intros Hd Ht Hf. unfold change_votes. destruct (N.eqb_spec d 0) as [|_]; [contradiction|].
  destruct (push_ok now val (votes_trace v d) (Ht d)) as (l' & Hp & Htr & Hl). rewrite Hf, Hp.
  eexists. split; [reflexivity|]. cbn [vt_delegates vt_total]. split; [reflexivity|]. split; [reflexivity|].
  assert (Hget : forall a, votes_trace (Votes (vt_delegates v) (<[d:=l']> (vt_votes v)) (vt_total v)) a
                 = if a =? d then l' else votes_trace v a).
  { intros a. unfold votes_trace. cbn [vt_votes]. destruct (N.eqb_spec a d) as [->|];
      [now rewrite lookup_insert|now rewrite lookup_insert_ne by congruence]. }
  split.
  - intros a. rewrite Hget. destruct (a =? d); [exact Htr|apply Ht].
  - intros t a. rewrite Hget. destruct (N.eqb_spec a d) as [->|]; [rewrite Hl|]; cbn [andb]; reflexivity.
Qed.

Lemma latest_now now l : trace (now + 1) l -> latest l = lookup_at now l.
Proof. intros H. symmetry. eapply lookup_late; [exact H|lia]. Qed.

Lemma push_add_eq now n l : latest l + n < 2 ^ 208 -> push_add now n l = push now (latest l + n) l.
Proof. unfold push_add. intros H. destruct (N.ltb_spec (latest l + n) (2 ^ 208)); [reflexivity|lia]. Qed.
Lemma push_sub_eq now n l : n <= latest l -> push_sub now n l = push now (latest l - n) l.
Proof. unfold push_sub. intros H. destruct (N.leb_spec n (latest l)); [reflexivity|lia]. Qed.

Lemma ibal_le b a : i_total_ok b -> ibal b a <= bk_isupply b /\ bk_isupply b < 2 ^ 208.
Proof.
  intros [H1 H2]. pose proof (balance_le_total (bk_iprove b) a). unfold ibal, max_votes_supply in *. lia.
Qed.

(** A movement of the total supply. *)
Lemma move_total_ok K P now m b b' l :
  mv_ok K P m b b' -> trace (now + 1) l -> lookup_at now l = bk_isupply b ->
  exists l', move_total now m l = Some l' /\ trace (now + 1) l' /\
    forall t, lookup_at t l' = if now <=? t then bk_isupply b' else lookup_at t l.
Proof.
  intros [_ _ Hne _ _ Hs Ht] Htr Hl. pose proof (ibal_le b' 0 Ht) as [_ Hlt].
  pose proof (latest_now now l Htr) as Hlat. rewrite Hl in Hlat. unfold move_total.
  destruct (N.eqb_spec (mv_from m) 0) as [E|E].
  - destruct (N.eqb_spec (mv_to m) 0) as [E'|E']; [congruence|].
    rewrite push_add_eq by (rewrite Hlat; lia). rewrite Hlat. replace (bk_isupply b + mv_amount m) with (bk_isupply b') by lia.
    destruct (push_ok now (bk_isupply b') l Htr) as (l' & Hp & Htr' & Hl'). rewrite Hp. eauto.
  - destruct (N.eqb_spec (mv_to m) 0) as [E'|E'].
    + rewrite push_sub_eq by (rewrite Hlat; lia). rewrite Hlat. replace (bk_isupply b - mv_amount m) with (bk_isupply b') by lia.
      destruct (push_ok now (bk_isupply b') l Htr) as (l' & Hp & Htr' & Hl'). rewrite Hp. eauto.
    + exists l. split; [reflexivity|]. split; [exact Htr|]. intros t. destruct (N.leb_spec now t); [|reflexivity].
      rewrite (lookup_late (now + 1)) by (assumption || lia). lia.
Qed.

Lemma end_delegate K now past ps P b v a :
  votes_ok K now past ps P b v -> ~ 0 ∈ P -> ~ ke_self K ∈ P -> at_ends K P a ->
  delegate_of v a = if bool_decide (a ∈ P) then a else 0.
Proof.
  intros [] Hz Hs [->|[->|Ha]].
  - rewrite bool_decide_false by exact Hz. assumption.
  - rewrite bool_decide_false by exact Hs. assumption.
  - rewrite bool_decide_true by exact Ha. auto.
Qed.

Lemma vote_move_ok K now past ps P m b b' v :
  ~ 0 ∈ P -> ~ ke_self K ∈ P ->
  votes_ok K now past ps P b v -> i_total_ok b -> mv_ok K P m b b' ->
  exists v', vote_move now m v = Some v' /\ votes_ok K now past ps P b' v'.
Proof.
  intros Hz Hs Hv Hb Hm. pose proof Hv as [V1 V2 V3 V4 V5 V6 V7]. pose proof Hm as [Mf Mt Mne Mb Mz Ms Mtot].
  destruct (move_total_ok K P now m b b' (vt_total v) Hm V5) as (l & El & Htr & Hl).
  { rewrite V7. now rewrite N.leb_refl. }
  unfold vote_move. rewrite El.
  rewrite (end_delegate K now past ps P b v _ Hv Hz Hs Mf), (end_delegate K now past ps P b v _ Hv Hz Hs Mt).
  set (v0 := Votes (vt_delegates v) (vt_votes v) l).
  assert (Hl2 : forall t, lookup_at t l = if now <=? t then bk_isupply b' else ps t)
    by (intros t; rewrite Hl, V7; now destruct (now <=? t)).
  assert (Hnz : forall a, a ∈ P -> a <> 0) by (intros a Ha ->; auto).
  assert (Hother : forall x, x ∈ P -> x <> mv_from m -> x <> mv_to m -> ibal b' x = ibal b x).
  { intros x Hx H1 H2. specialize (Mb x (Hnz x Hx)). destruct (N.eqb_spec x (mv_from m)); [contradiction|].
    destruct (N.eqb_spec x (mv_to m)); [contradiction|]. lia. }
  assert (Hfrom : forall x, x ∈ P -> x = mv_from m -> ibal b' x + mv_amount m = ibal b x).
  { intros x Hx H1. specialize (Mb x (Hnz x Hx)). destruct (N.eqb_spec x (mv_from m)); [|contradiction].
    destruct (N.eqb_spec x (mv_to m)); [congruence|]. lia. }
  assert (Hto : forall x, x ∈ P -> x = mv_to m -> ibal b' x = ibal b x + mv_amount m).
  { intros x Hx H1. specialize (Mb x (Hnz x Hx)). destruct (N.eqb_spec x (mv_from m)); [congruence|].
    destruct (N.eqb_spec x (mv_to m)); [|contradiction]. lia. }
  (* votes at [now] of the delegates *)
  assert (Hcur : forall a, a ∈ P -> latest (votes_trace v a) = ibal b a).
  { intros a Ha. rewrite (latest_now now) by apply V4. rewrite V6, N.leb_refl, bool_decide_true by exact Ha. reflexivity. }
  unfold move_votes.
  destruct (_ || _) eqn:Eskip.
  { exists v0. split; [reflexivity|]. split; try assumption. intros t a. change (votes_trace v0 a) with (votes_trace v a).
    rewrite V6. destruct (now <=? t); [|reflexivity]. destruct (bool_decide (a ∈ P)) eqn:Ea; [|reflexivity].
    apply bool_decide_eq_true in Ea. apply orb_true_iff in Eskip as [E|E]; apply N.eqb_eq in E.
    - destruct (bool_decide (mv_from m ∈ P)) eqn:E1, (bool_decide (mv_to m ∈ P)) eqn:E2;
        rewrite ?bool_decide_eq_true, ?bool_decide_eq_false in *.
      + contradiction.
      + destruct (Hnz _ E1 E).
      + symmetry in E. destruct (Hnz _ E2 E).
      + symmetry. apply Hother; [exact Ea|intros ->; contradiction|intros ->; contradiction].
    - specialize (Mb a (Hnz a Ea)). destruct (a =? mv_from m), (a =? mv_to m); lia. }
  apply orb_false_iff in Eskip as [Edne En]. apply N.eqb_neq in Edne, En.
  (* the sender's side *)
  assert (exists v1, change_votes (push_sub now (mv_amount m)) (if bool_decide (mv_from m ∈ P) then mv_from m else 0) v0 = Some v1 /\
    vt_delegates v1 = vt_delegates v /\ vt_total v1 = l /\ (forall a, trace (now + 1) (votes_trace v1 a)) /\
    forall t a, lookup_at t (votes_trace v1 a)
      = if bool_decide (a ∈ P) && (a =? mv_from m) && (now <=? t) then ibal b' a else lookup_at t (votes_trace v a))
    as (v1 & E1 & D1 & T1 & Tr1 & L1).
  { destruct (bool_decide (mv_from m ∈ P)) eqn:Ef.
    - apply bool_decide_eq_true in Ef. pose proof (Hfrom _ Ef eq_refl) as Hb1.
      destruct (change_push (push_sub now (mv_amount m)) now (ibal b' (mv_from m)) (mv_from m) v0 (Hnz _ Ef) V4)
        as (v1 & E1 & D1 & T1 & Tr1 & L1).
      { change (votes_trace v0 (mv_from m)) with (votes_trace v (mv_from m)).
        rewrite push_sub_eq by (rewrite Hcur by exact Ef; lia). f_equal. rewrite Hcur by exact Ef. lia. }
      exists v1. split; [exact E1|]. split; [exact D1|]. split; [exact T1|]. split; [exact Tr1|].
      intros t a. rewrite L1. destruct (N.eqb_spec a (mv_from m)) as [->|]; cbn [andb].
      + rewrite bool_decide_true by exact Ef. reflexivity.
      + rewrite andb_false_r. reflexivity.
    - exists v0. split; [reflexivity|]. split; [reflexivity|]. split; [reflexivity|]. split; [exact V4|].
      intros t a. destruct (N.eqb_spec a (mv_from m)) as [->|]; [|now rewrite andb_false_r].
      rewrite Ef. reflexivity. }
  rewrite E1.
  assert (exists v2, change_votes (push_add now (mv_amount m)) (if bool_decide (mv_to m ∈ P) then mv_to m else 0) v1 = Some v2 /\
    vt_delegates v2 = vt_delegates v /\ vt_total v2 = l /\ (forall a, trace (now + 1) (votes_trace v2 a)) /\
    forall t a, lookup_at t (votes_trace v2 a)
      = if bool_decide (a ∈ P) && (a =? mv_to m) && (now <=? t) then ibal b' a else lookup_at t (votes_trace v1 a))
    as (v2 & E2 & D2 & T2 & Tr2 & L2).
  { destruct (bool_decide (mv_to m ∈ P)) eqn:Ef.
    - apply bool_decide_eq_true in Ef. pose proof (Hto _ Ef eq_refl) as Hb1.
      assert (Hlat : latest (votes_trace v1 (mv_to m)) = ibal b (mv_to m)).
      { rewrite (latest_now now) by apply Tr1. rewrite L1.
        destruct (N.eqb_spec (mv_to m) (mv_from m)); [congruence|]. rewrite andb_false_r. cbn [andb].
        rewrite <- (latest_now now) by apply V4. now apply Hcur. }
      destruct (change_push (push_add now (mv_amount m)) now (ibal b' (mv_to m)) (mv_to m) v1 (Hnz _ Ef) Tr1)
        as (v2 & E2 & D2 & T2 & Tr2 & L2).
      { pose proof (ibal_le b' (mv_to m) Mtot). rewrite push_add_eq by (rewrite Hlat; lia). f_equal. rewrite Hlat. lia. }
      exists v2. split; [exact E2|]. split; [congruence|]. split; [congruence|]. split; [exact Tr2|].
      intros t a. rewrite L2. destruct (N.eqb_spec a (mv_to m)) as [->|]; cbn [andb].
      + rewrite bool_decide_true by exact Ef. reflexivity.
      + rewrite andb_false_r. reflexivity.
    - exists v1. split; [reflexivity|]. split; [exact D1|]. split; [exact T1|]. split; [exact Tr1|].
      intros t a. destruct (N.eqb_spec a (mv_to m)) as [->|]; [|now rewrite andb_false_r].
      rewrite Ef. reflexivity. }
  exists v2. split; [exact E2|].
  split; unfold delegate_of; rewrite ?D2; try assumption.
  - rewrite T2. exact Htr.
  - intros t a. rewrite L2, L1, V6. destruct (bool_decide (a ∈ P)) eqn:Ea; cbn [andb]; [|reflexivity].
    apply bool_decide_eq_true in Ea.
    destruct (N.eqb_spec a (mv_to m)), (N.eqb_spec a (mv_from m)), (N.leb_spec now t); cbn [andb]; try reflexivity.
    symmetry. now apply Hother.
  - intros t. rewrite T2. apply Hl2.
Qed.

Lemma vote_moves_ok K now past ps P l b b' :
  ~ 0 ∈ P -> ~ ke_self K ∈ P -> moves_ok K P l b b' -> forall v,
  votes_ok K now past ps P b v -> i_total_ok b ->
  exists v', vote_moves now l v = Some v' /\ votes_ok K now past ps P b' v'.
Proof.
  intros Hz Hs H. induction H as [b b' Hsame|m l b b1 b' Hm _ IH]; intros v Hv Ht; cbn [vote_moves].
  - exists v. split; [reflexivity|]. eapply votes_same; eassumption.
  - destruct (vote_move_ok K now past ps P m b b1 v Hz Hs Hv Ht Hm) as (v1 & E & Hv1). rewrite E.
    apply IH; [exact Hv1|apply (mo_total _ _ _ _ _ Hm)].
Qed.

(** ** The movements of staking calls *)

Lemma balances_same b t : same_i b (bk_set_prove t b).
Proof. split; reflexivity. Qed.

Lemma moves_mint K P x n b b' :
  at_ends K P x -> x <> 0 -> (forall y, ibal b' y = ibal b y + if y =? x then n else 0) ->
  bk_isupply b' = bk_isupply b + n -> i_total_ok b' -> mv_ok K P (Movement 0 x n) b b'.
Proof.
  intros He Hx Hb Hs Ht. split; cbn [mv_from mv_to mv_amount]; try assumption.
  - now left.
  - congruence.
  - intros y Hy. rewrite Hb. destruct (N.eqb_spec y 0); [contradiction|]. lia.
  - rewrite Hb. destruct (N.eqb_spec 0 x); [congruence|lia].
  - rewrite N.eqb_refl. destruct (N.eqb_spec x 0); [contradiction|]. lia.
Qed.
Lemma moves_burn K P x n b b' :
  at_ends K P x -> x <> 0 -> ibal b' x + n = ibal b x -> (forall y, y <> x -> ibal b' y = ibal b y) ->
  bk_isupply b' + n = bk_isupply b -> i_total_ok b' -> mv_ok K P (Movement x 0 n) b b'.
Proof.
  intros He Hx Hb Hb' Hs Ht. split; cbn [mv_from mv_to mv_amount]; try assumption.
  - now left.
  - intros y Hy. destruct (N.eqb_spec y 0); [contradiction|]. destruct (N.eqb_spec y x) as [->|]; [lia|].
    rewrite Hb' by assumption. lia.
  - apply Hb'. congruence.
  - rewrite N.eqb_refl. destruct (N.eqb_spec x 0); [contradiction|]. lia.
Qed.
Lemma moves_transfer K P x y n b b' :
  at_ends K P x -> at_ends K P y -> x <> 0 -> y <> 0 -> x <> y ->
  tk_transfer (bk_iprove b) x y n = Ok (bk_iprove b') -> bk_isupply b' = bk_isupply b -> i_total_ok b' ->
  mv_ok K P (Movement x y n) b b'.
Proof.
  intros Hx Hy Hx0 Hy0 Hne Ht Hs Htot. apply transfer_ok in Ht as (_ & Hle & Hb).
  split; cbn [mv_from mv_to mv_amount]; try assumption; unfold ibal.
  - intros z Hz. rewrite Hb. destruct (N.eqb_spec z x) as [->|].
    + destruct (N.eqb_spec x y); [contradiction|]. lia.
    + destruct (N.eqb_spec z y); lia.
  - rewrite Hb. destruct (N.eqb_spec 0 x); [congruence|]. destruct (N.eqb_spec 0 y); [congruence|]. lia.
  - destruct (N.eqb_spec y 0); [contradiction|]. destruct (N.eqb_spec x 0); [contradiction|]. lia.
Qed.

Lemma call_moves_ok K x c s s' evs :
  stk_inv K s -> by_outsider K (KAccepted x c evs s') -> staking_run K x c s = Ok (s', evs) ->
  moves_ok K (rg_provers (sk_registry s)) (call_moves K c s evs) (sk_bank s) (sk_bank s').
Proof.
  intros Hinv Ho H. pose proof (ki_addresses K s Hinv) as HK. pose proof (ki_total K s Hinv) as Htot.
  pose proof (ki_provers K s Hinv) as Hprov. pose proof (sao_self K HK) as Hself.
  set (P := rg_provers (sk_registry s)) in *.
  assert (Hself_end : at_ends K P (ke_self K)) by (right; left; reflexivity).
  assert (Hp_end : forall p, p ∈ P -> at_ends K P p) by (intros p Hp; right; right; exact Hp).
  assert (Hstake : forall a p n t s1 evs1, p ∈ P ->
    stake_for K a p n (sk_set_bank (bk_set_prove t (sk_bank s)) s) = Ok (s1, evs1) ->
    moves_ok K P (flat_map (event_moves K) evs1) (sk_bank s) (sk_bank s1)).
  { intros a p n t s1 evs1 Hp Hs. destruct (Hprov p Hp) as (Hp0 & Hps & _).
    apply stake_for_ok in Hs as (_ & _ & _ & _ & _ & i & sh & b1 & b2 & Hd & _ & Hv & _ & _ & _ & -> & ->).
    sk_simpl. apply i_deposit_ok in Hd as (t1 & _ & _ & _ & _ & Hs1 & Hb1 & Ht1 & _).
    apply v_deposit_ok in Hv as (Htr & _ & _ & _ & Hs2 & _ & _ & Ht2).
    specialize (Ht1 Htot). specialize (Ht2 Ht1). cbn [flat_map event_moves app].
    apply moves_before with (b0 := bk_set_prove t (sk_bank s)); [apply balances_same|].
    apply ms_cons with (b1 := b1); [apply moves_mint; assumption|].
    apply ms_cons with (b1 := b2); [apply moves_transfer; auto|].
    constructor. split; reflexivity. }
  assert (Hnone : forall b, same_i (sk_bank s) b -> moves_ok K P [] (sk_bank s) b) by (intros; now constructor).
  destruct c; cbn [staking_run] in H; unfold call_moves.
  - apply stake_call_ok in H as (t & Hp & _ & H). eapply Hstake; eassumption.
  - apply permit_stake_ok in H as (t1 & t & Hp & _ & _ & H). eapply Hstake; eassumption.
  - apply request_unstake_ok in H. cbv zeta in H. destruct H as (_ & Hb & _ & _ & _ & b2 & e & Hv & -> & ->).
    sk_simpl. pose proof (ki_bound K s Hinv _ Hb) as Hp. destruct (Hprov _ Hp) as (Hp0 & Hps & _).
    apply v_redeem_ok in Hv as (Htr & _ & _ & _ & _ & Hs2 & _ & _ & Ht2). cbn [flat_map event_moves app].
    apply moves_one. apply moves_transfer; auto.
  - apply finish_unstake_ok in H. cbv zeta in H. destruct H as (Hb & _ & _ & d & l & po & b & Hrun & _ & _ & _ & ->).
    assert (moves_ok K P (flat_map (event_moves K) evs) (sk_bank s) b) as Hm.
    { clear - Hrun Htot Hself Hself_end. revert Hrun Htot. generalize (pool_of s (bound_to s staker)), (sk_bank s).
      induction 1 as [pool b|c rest pool b pool1 b1 prove ev evs pool' b' Hf _ IH]; intros Ht; [constructor; apply same_i_refl|].
      apply finish_request_ok in Hf as (_ & -> & _ & _ & Hb). cbn [flat_map event_moves].
      set (paid := N.min _ _) in *. destruct Hb as [(E & -> & _)|Hb].
      - rewrite E, N.eqb_refl. cbn [app]. auto.
      - apply i_redeem_ok in Hb as (_ & Hle & _ & Hsup & Hbal & Htot & _). destruct (Htot Ht) as [Ht1 Hles].
        specialize (IH Ht1). destruct (N.eqb_spec paid 0) as [E|E].
        + cbn [app]. eapply moves_before; [|exact IH]. split; [intros x|lia]. unfold ibal. rewrite Hbal.
          destruct (x =? ke_self K); lia.
        + cbn [app]. econstructor; [|exact IH]. apply moves_burn; auto; unfold ibal.
          * rewrite Hbal, N.eqb_refl. lia.
          * intros y Hy. rewrite Hbal. destruct (N.eqb_spec y (ke_self K)); [contradiction|reflexivity].
          * lia. }
    destruct (_ && _); sk_simpl; exact Hm.
  - apply request_slash_ok in H as (_ & _ & _ & _ & -> & ->). cbn [flat_map event_moves app]. apply Hnone, same_i_refl.
  - apply cancel_slash_ok in H as (c & _ & _ & _ & _ & -> & ->). cbn [flat_map event_moves app]. apply Hnone, same_i_refl.
  - apply finish_slash_ok in H. cbv zeta in H. destruct H as (c & d & burned & _ & _ & _ & Hp & -> & H).
    destruct (Hprov _ Hp) as (Hp0 & Hps & _). cbn [flat_map slash_moves]. cbv zeta. rewrite app_nil_r.
    destruct H as [(E & ->)|(b1 & b2 & f & E & B1 & B2 & _ & ->)]; sk_simpl.
    + rewrite E. rewrite N.mul_0_l. assert (forall t, 0 / t = 0) as -> by (intros []; reflexivity). cbn [N.sub N.eqb app]. apply Hnone, same_i_refl.
    + set (amount := N.min _ _) in *. set (fe := amount * _ / _) in *.
      destruct B1 as [_ Bt1 Bo1 Bx1 _ Bs1 _], B2 as [_ Bt2 Bo2 Bx2 _ Bs2 _]. specialize (Bt1 Htot). specialize (Bs1 Htot).
      specialize (Bt2 Bt1). specialize (Bs2 Bt1).
      apply moves_app with (b1 := b1).
      * destruct (N.eqb_spec fe 0) as [E0|E0]; [|apply moves_one, moves_burn; auto].
        constructor. split; [|lia]. intros y. unfold ibal. destruct (N.eq_dec y (ke_self K)) as [->|]; [lia|auto].
      * destruct (N.eqb_spec (amount - fe) 0) as [E0|E0]; [|apply moves_one, moves_burn; auto].
        constructor. split; [|lia]. intros y. unfold ibal. destruct (N.eq_dec y p) as [->|]; [lia|auto].
  - apply dispense_ok in H. cbv zeta in H. destruct H as (a & t & _ & _ & _ & _ & _ & -> & ->). cbn [flat_map event_moves app].
    apply Hnone. split; reflexivity.
  - unfold k_set_dispenser in H. sk_inv. subst. apply Hnone, same_i_refl.
  - unfold k_update_rate in H. sk_inv. subst. apply Hnone, same_i_refl.
  - apply create_prover_ok in H as (d & n & _ & -> & ->). apply Hnone, same_i_refl.
  - apply reward_ok in H as (Hp & -> & b & sh & Hd & ->). sk_simpl. destruct (Hprov _ Hp) as (Hp0 & Hps & _).
    pose proof Hd as Hd'. unfold i_deposit in Hd'. sk_inv. subst.
    match goal with H : i_preview_deposit _ _ _ = Ok _ |- _ => rewrite H end.
    apply i_deposit_ok in Hd as (t1 & _ & _ & _ & _ & Hs1 & Hb1 & Ht1 & _). apply moves_one, moves_mint; auto.
  - unfold k_transfer_ownership in H. sk_inv. subst. apply Hnone, same_i_refl.
  - unfold k_renounce_ownership in H. sk_inv. subst. apply Hnone, same_i_refl.
Qed.

(** Only the staking contract and provers hold $iPROVE. *)
Definition holders_ok (K : staking_env) (P : gset N) (b : bank) : Prop :=
  forall a, a <> ke_self K -> ~ a ∈ P -> ibal b a = 0.

Lemma holders_moves K P l b b' : moves_ok K P l b b' -> holders_ok K P b -> holders_ok K P b'.
Proof.
  induction 1 as [b b' [Hs _]|m l b b1 b' Hm _ IH]; intros Hh.
  - intros a H1 H2. rewrite Hs. auto.
  - apply IH. intros a H1 H2. destruct (N.eq_dec a 0) as [->|Ha].
    + rewrite (mo_zero _ _ _ _ _ Hm). auto.
    + pose proof (mo_bal _ _ _ _ _ Hm a Ha) as Hb. pose proof (mo_from _ _ _ _ _ Hm) as Hf. pose proof (mo_to _ _ _ _ _ Hm) as Ht.
      destruct (N.eqb_spec a (mv_to m)) as [->|_]; [destruct Ht as [?|[?|?]]; contradiction|]. rewrite (Hh a H1 H2) in Hb.
      destruct (a =? mv_from m); lia.
Qed.
