(** Proofs of the properties of the running node. *)
From Coq Require Import ZifyBool ZifyN ZifyNat.
From Verif Require Export NodeSystemSpec Proofs_Node.
Open Scope N_scope.

(** ** Programs up to an event *)

(** Until an event [stop], no event is [bad]. *)
Fixpoint upto {Ev X} (stop bad : Ev -> Prop) (p : flow Ev X) : Prop :=
  match p with
  | Ret _ => True
  | Do A mk k => forall a, stop (mk a) \/ (~ bad (mk a) /\ upto stop bad (k a))
  end.

Lemma upto_bind {Ev X Y} (stop bad : Ev -> Prop) (p : flow Ev X) (f : X -> flow Ev Y) :
  upto stop bad p -> (forall x, upto stop bad (f x)) -> upto stop bad (flow_bind p f).
Proof.
  intros Hp Hf. induction p as [x|A mk k IH]; cbn [flow_bind upto] in *; [apply Hf|].
  intros a. destruct (Hp a) as [H|[H1 H2]]; [left; exact H|right]. split; [exact H1|]. now apply IH.
Qed.
Lemma upto_map {Ev Ev' X} (g : Ev -> Ev') (stop bad : Ev' -> Prop) (p : flow Ev X) :
  upto (fun e => stop (g e)) (fun e => bad (g e)) p -> upto stop bad (flow_map g p).
Proof.
  intros Hp. induction p as [x|A mk k IH]; cbn [flow_map upto] in *; [exact I|].
  intros a. destruct (Hp a) as [H|[H1 H2]]; [left; exact H|right]. split; [exact H1|]. now apply IH.
Qed.
Lemma upto_retry {Ev T} (stop bad : timed Ev -> Prop) (op : flow Ev (result T rpc_error)) :
  (forall t, ~ bad (Clock t)) -> (forall r, ~ bad (Random r)) -> (forall d u, ~ bad (Slept d u)) ->
  upto (fun e => stop (Op e)) (fun e => bad (Op e)) op ->
  forall fuel, upto stop bad (with_retry fuel op).
Proof.
  intros H1 H2 H3 Hop fuel. unfold with_retry, retry_operation, ask. cbn [flow_bind upto]. intros start. right. split; [apply H1|].
  generalize initial_interval. induction fuel as [|fuel IH]; intros interval; cbn [retry upto]; [exact I|].
  apply upto_bind; [now apply upto_map|]. intros [x|e]; [exact I|]. destruct (transient e); [|exact I].
  apply upto_bind.
  - unfold next_pause, ask. cbn [flow_bind upto]. intros t. right. split; [apply H1|].
    destruct (_ <? _); [exact I|]. cbn [flow_bind upto]. intros r. right. split; [apply H2|].
    destruct (_ <=? _); exact I.
  - intros [d|]; [|exact I]. cbn [flow_bind ask upto]. intros u. right. split; [apply H3|]. apply IH.
Qed.

(** ** The prover asks the registry before a fulfilment *)

Definition asked_false (id : bytes) (e : timed node_event) : Prop := e = Op (EUnexecutable id false).
Definition op_fulfils (id : bytes) (e : timed node_event) : Prop := exists x, e = Op x /\ fulfils id x.

Lemma not_fulfils id e : (forall m r, e <> EFulfill m r) -> ~ op_fulfils id (Op e).
Proof. intros H (x & [= <-] & m & r & b & E & _). now apply (H m r). Qed.

Lemma upto_ask {Ev A} (stop bad : Ev -> Prop) (mk : A -> Ev) : (forall a, ~ bad (mk a)) -> upto stop bad (ask mk).
Proof. intros H. cbn [ask upto]. intros a. right. split; [apply H|exact I]. Qed.

Lemma fail_upto id fuel n q : upto (asked_false id) (op_fulfils id) (submit fuel (fail_operation n q)).
Proof.
  unfold submit. apply upto_bind; [|intros r; exact I]. apply upto_retry.
  - intros t (x & [=] & _).
  - intros t (x & [=] & _).
  - intros d u (x & [=] & _).
  - unfold fail_operation. apply upto_bind.
    + apply upto_ask. intros a. apply not_fulfils. discriminate.
    + intros [nonce|e]; [|exact I]. apply upto_ask. intros a. apply not_fulfils. discriminate.
Qed.
Lemma fulfil_upto id fuel n q proof : q <> id ->
  upto (asked_false id) (op_fulfils id) (submit fuel (fulfill_operation n q proof)).
Proof.
  intros Hq. unfold submit. apply upto_bind; [|intros r; exact I]. apply upto_retry.
  - intros t (x & [=] & _).
  - intros t (x & [=] & _).
  - intros d u (x & [=] & _).
  - unfold fulfill_operation. apply upto_bind.
    + apply upto_ask. intros a. apply not_fulfils. discriminate.
    + intros [nonce|e]; [|exact I]. apply upto_ask. intros a (x & [= <-] & m & r & b & [= <- _] & Hb & Hid).
      injection Hb as <-. now apply Hq.
Qed.

Lemma task_upto id program stdin mode : upto (asked_false id) (op_fulfils id) (flow_map Op (proving_task program stdin mode)).
Proof.
  apply upto_map. unfold proving_task. apply upto_bind; [apply upto_ask; intros a; now apply not_fulfils|].
  intros [pk|e| |]; try exact I. apply upto_bind; [apply upto_ask; intros a; now apply not_fulfils|].
  intros [c|e| |]; try exact I. apply upto_bind; [apply upto_ask; intros a; now apply not_fulfils|].
  intros [[s t]|e| |]; exact I.
Qed.

Lemma prove_request_upto id fuel n q next : upto (asked_false id) (op_fulfils id) next ->
  upto (asked_false id) (op_fulfils id) (prove_request fuel n q next).
Proof.
  intros Hnext. unfold prove_request, ask. cbv zeta. cbn [flow_map flow_bind upto]. intros known.
  destruct (decide (known = false /\ pr_id q = id)) as [[-> ->]|Hne]; [left; reflexivity|right].
  split; [apply not_fulfils; discriminate|].
  assert (Hgo : forall d : bool, upto (asked_false id) (op_fulfils id) (if d then next else Ret RUnfinished)).
  { intros []; [exact Hnext|exact I]. }
  destruct known; [apply upto_bind; [apply fail_upto|exact Hgo]|].
  assert (Hid : pr_id q <> id) by (intros E; now apply Hne).
  destruct (extract_artifact_name (pr_program_uri q)); [|exact I]. cbn [flow_map flow_bind upto].
  intros pr. right. split; [apply not_fulfils; discriminate|]. destruct pr as [program|e]; [|exact I].
  destruct (extract_artifact_name (pr_stdin_uri q)); [|exact I]. cbn [flow_map flow_bind upto].
  intros st. right. split; [apply not_fulfils; discriminate|]. destruct st as [stdin|e]; [|exact I].
  destruct (proving_mode (pr_mode q)) as [mode|]; [|exact I].
  apply upto_bind; [apply task_upto|]. intros [[[[proof|] cycles] time]|].
  - cbn [flow_map flow_bind upto]. intros u. right. split; [apply not_fulfils; discriminate|].
    apply upto_bind; [now apply fulfil_upto|exact Hgo].
  - cbn [flow_map flow_bind upto]. intros u. right. split; [apply not_fulfils; discriminate|exact I].
  - apply upto_bind; [apply fail_upto|exact Hgo].
Qed.

Lemma prove_upto id fuel n : upto (asked_false id) (op_fulfils id) (prove fuel n).
Proof.
  unfold prove, ask. cbn [flow_map flow_bind upto]. intros o. right. split; [apply not_fulfils; discriminate|].
  destruct o as [owner|e]; [|exact I]. cbn [flow_map flow_bind upto].
  intros t. right. split; [apply not_fulfils; discriminate|]. cbn [flow_map flow_bind upto].
  intros r. right. split; [apply not_fulfils; discriminate|]. destruct r as [qs|e]; [|exact I].
  induction qs as [|q qs IH]; cbn [prove_all]; [exact I|]. now apply prove_request_upto.
Qed.

(** ** Histories *)

Lemma sys_run_snoc fuel n ls l s : sys_run fuel n (ls ++ [l]) s -> exists s0, sys_run fuel n ls s0 /\ sys_step fuel n s0 l s.
Proof.
  intros H. inversion H as [E|ls' s0 l' s' H1 H2 E]; [now destruct ls|].
  apply app_inj_tail in E as [-> ->]. eauto.
Qed.
Lemma sys_run_prefix fuel n ls1 ls2 s : sys_run fuel n (ls1 ++ ls2) s -> exists s1, sys_run fuel n ls1 s1.
Proof.
  revert s. induction ls2 as [|l ls2 IH] using rev_ind; intros s H; [rewrite app_nil_r in H; eauto|].
  rewrite app_assoc in H. apply sys_run_snoc in H as (s0 & H & _). now apply IH in H.
Qed.
Lemma sys_run_at fuel n ls1 l ls2 s : sys_run fuel n (ls1 ++ l :: ls2) s ->
  exists s1 s2, sys_run fuel n ls1 s1 /\ sys_step fuel n s1 l s2 /\ sys_run fuel n (ls1 ++ [l]) s2.
Proof.
  intros H. change (l :: ls2) with ([l] ++ ls2) in H. rewrite app_assoc in H. apply sys_run_prefix in H as (s2 & H).
  pose proof H as H'. apply sys_run_snoc in H as (s1 & H1 & H2). eauto.
Qed.

Lemma flat_map_snoc {A B} (f : A -> list B) l x : flat_map f (l ++ [x]) = flat_map f l ++ f x.
Proof. rewrite flat_map_app. cbn [flat_map]. now rewrite app_nil_r. Qed.

Lemma reaches_snoc {Ev X} : forall tr (p : flow Ev X) A mk k a, reaches p tr (Do A mk k) -> reaches p (tr ++ [mk a]) (k a).
Proof.
  induction tr as [|e tr IH]; intros p A mk k a H; cbn [reaches app] in *.
  - subst p. eauto.
  - destruct p as [|A' mk' k']; [easy|]. destruct H as (a' & -> & H). eauto.
Qed.
Lemma reaches_runs {Ev X} : forall tr (p : flow Ev X) x, reaches p tr (Ret x) -> runs p tr x.
Proof.
  induction tr as [|e tr IH]; intros p x H; cbn [reaches] in H.
  - subst p. cbn. auto.
  - destruct p as [|A mk k]; [easy|]. destruct H as (a & -> & H). cbn [runs]. eauto.
Qed.

(** ** Rounds *)

Lemma C73_rounds_proof fuel n ls s (Hrun : sys_run fuel n ls s) :
  exists done b p,
    bid_events ls = concat (map fst done) ++ b /\ prove_events ls = concat (map snd done) ++ p /\
    length done = rounds_ended ls /\ Forall (complete_round fuel n) done /\
    reaches (bid fuel n) b (sy_bid s) /\ reaches (prove fuel n) p (sy_prove s).
Proof.
  induction Hrun as [|ls s l s' _ (done & b & p & Eb & Ep & El & Hd & Hb & Hp) Hstep].
  - exists [], [], []. repeat split; constructor.
  - unfold bid_events, prove_events, rounds_ended in *. rewrite !flat_map_snoc, app_length, Eb, Ep.
    inversion Hstep; subst; cbn [sy_bid sy_prove length app] in *; rewrite ?app_nil_r, ?Nat.add_0_r.
    + exists done, (b ++ [mk a]), p. rewrite app_assoc. repeat split; auto. now apply reaches_snoc.
    + exists done, b, (p ++ [mk a]). rewrite app_assoc. repeat split; auto. now apply reaches_snoc.
    + exists done, b, p. auto 10.
    + exists (done ++ [(b, p)]), [], []. rewrite !map_app, !concat_app. cbn [map concat fst snd]. rewrite !app_nil_r, app_length.
      split; [reflexivity|]. split; [reflexivity|]. split; [cbn [length]; now rewrite El|]. split; [|split; reflexivity].
      apply Forall_app. split; [exact Hd|]. constructor; [|constructor]. exists rb, rp. cbn [fst snd].
      split; [now apply reaches_runs|]. split; [now apply reaches_runs|]. split; intros ->; auto.
    + exists done, b, p. auto 10.
    + exists done, b, p. auto 10.
    + exists done, b, p. auto 10.
    + exists done, b, p. auto 10.
Qed.

(** ** The registry *)

Definition no_error : rpc_error := OtherError [].

(** All that was said is in the registry. *)
Definition all_in (ls : list sys_label) (registry : gset bytes) : Prop :=
  forall owner qs id, In (said_unexecutable owner qs) ls -> In id (map pr_id qs) -> id ∈ registry.
(** The states of the background task. *)
Inductive checking (n : node) (ls : list sys_label) (registry : gset bytes) : flow check_event unit -> Prop :=
| check_new : all_in ls registry -> checking n ls registry (check_turn n)
| check_owner owner : all_in ls registry -> checking n ls registry
    (Do _ (KList (CheckFilter status_assigned execution_unexecutable owner 100))
       (fun response => match response with Err _ => Ret tt | Ok requests => ask (KInsert (map pr_id requests)) end))
| check_list owner qs before after :
    ls = before ++ said_unexecutable owner qs :: after -> (forall e, ~ In (LCheck e) after) -> all_in before registry ->
    checking n ls registry (ask (KInsert (map pr_id qs))).

Lemma all_in_snoc ls registry l : all_in ls registry -> (forall owner qs, l <> said_unexecutable owner qs) -> all_in (ls ++ [l]) registry.
Proof.
  intros H Hl owner qs id [Hin|[E|[]]]%in_app_or Hid; [now apply (H owner qs)|]. now apply Hl in E.
Qed.
Lemma checking_snoc n ls registry p l : checking n ls registry p -> (forall e, l <> LCheck e) -> checking n (ls ++ [l]) registry p.
Proof.
  intros H Hl. assert (Hl' : forall owner qs, l <> said_unexecutable owner qs) by (intros owner qs; apply Hl).
  destruct H as [H|owner H|owner qs before after -> Ha H].
  - apply check_new. now apply all_in_snoc.
  - apply check_owner. now apply all_in_snoc.
  - apply (check_list n _ registry owner qs before (after ++ [l])); [now rewrite <- app_assoc| |exact H].
    intros e [Hin|[E|[]]]%in_app_or; [now apply (Ha e)|now apply (Hl e)].
Qed.
Lemma checking_step n ls registry p : checking n ls registry p ->
  match p with
  | Ret _ => False
  | Do A mk k => forall a, checking n (ls ++ [LCheck (mk a)]) (registry_after (mk a) registry)
                             (match k a with Ret _ => check_turn n | next => next end)
  end.
Proof.
  intros [H|owner H|owner qs before after -> Ha H]; cbn.
  - intros [owner|e]; cbn.
    + apply check_owner. apply all_in_snoc; [exact H|]. discriminate.
    + apply check_new. apply all_in_snoc; [exact H|]. discriminate.
  - intros [qs|e]; cbn.
    + apply (check_list n _ registry owner qs ls []); [reflexivity|now intros e []|exact H].
    + apply check_new. apply all_in_snoc; [exact H|]. intros owner' qs [=].
  - intros u. apply check_new. apply all_in_snoc; [|discriminate]. intros owner' qs' id Hin Hid.
    apply elem_of_union. apply in_app_or in Hin as [Hin|[E|Hin]].
    + right. now apply (H owner' qs').
    + left. injection E as -> ->. now apply elem_of_list_to_set, elem_of_list_In.
    + now apply Ha in Hin.
Qed.

(** What the background task has done in its turn. *)
Inductive turn_so_far (n : node) : list check_event -> flow check_event unit -> Prop :=
| turn_new : turn_so_far n [] (check_turn n)
| turn_owner owner : turn_so_far n [KOwner (address_bytes n) (Ok owner)]
    (Do _ (KList (CheckFilter status_assigned execution_unexecutable owner 100))
       (fun response => match response with Err _ => Ret tt | Ok requests => ask (KInsert (map pr_id requests)) end))
| turn_list owner qs :
    turn_so_far n [KOwner (address_bytes n) (Ok owner); KList (CheckFilter 2 3 owner 100) (Ok qs)] (ask (KInsert (map pr_id qs))).
Lemma turn_step n rest p : turn_so_far n rest p ->
  match p with
  | Ret _ => False
  | Do A mk k => forall a, match k a with
                           | Ret _ => check_round n (rest ++ [mk a])
                           | next => turn_so_far n (rest ++ [mk a]) next
                           end
  end.
Proof.
  intros [|owner|owner qs]; cbn.
  - intros [owner|e]; constructor.
  - intros [qs|e]; constructor.
  - intros []. constructor.
Qed.
Lemma C73_background_proof fuel n ls s : sys_run fuel n ls s ->
  exists turns rest more, check_events ls = concat turns ++ rest /\ Forall (check_round n) turns /\
    more <> [] /\ check_round n (rest ++ more) /\
    (sy_returned s = None -> exists e s', sys_step fuel n s (LCheck e) s').
Proof.
  intros Hrun. assert (G : exists turns rest, check_events ls = concat turns ++ rest /\ Forall (check_round n) turns /\
    turn_so_far n rest (sy_check s)).
  { induction Hrun as [|ls s l s' _ (turns & rest & E & Ht & Hs) Hstep].
    - exists [], []. split; [reflexivity|]. split; [constructor|constructor].
    - unfold check_events in *. rewrite flat_map_snoc, E.
      inversion Hstep; subst; cbn [sy_check] in *; rewrite ?app_nil_r; try (exists turns, rest; now auto).
      apply turn_step in Hs. specialize (Hs a). destruct (k a) as [u|A' mk' k'].
      + exists (turns ++ [rest ++ [mk a]]), []. rewrite concat_app. cbn [concat]. rewrite !app_nil_r, app_assoc.
        split; [reflexivity|]. split; [|constructor]. apply Forall_app. auto.
      + exists turns, (rest ++ [mk a]). rewrite app_assoc. auto. }
  destruct G as (turns & rest & E & Ht & Hs). exists turns, rest.
  assert (Hgo : sy_returned s = None -> exists e s', sys_step fuel n s (LCheck e) s').
  { destruct s as [sb sp sc reg req ret]. cbn [sy_returned sy_check] in *. intros ->.
    assert (Ha : match sc with Ret _ => False | Do A mk k => exists a : A, True end).
    { destruct Hs; cbn; [exists (Err no_error)|exists (Err no_error)|exists tt]; exact I. }
    destruct sc as [|A mk k]; [easy|]. destruct Ha as [a _]. exists (mk a). eexists. apply step_check. }
  destruct Hs as [|owner|owner qs].
  - exists [KOwner (address_bytes n) (Err no_error)]. split; [exact E|]; split; [exact Ht|]; split; [discriminate|split; [constructor|exact Hgo]].
  - exists [KList (CheckFilter 2 3 owner 100) (Err no_error)]. split; [exact E|]; split; [exact Ht|]; split; [discriminate|split; [constructor|exact Hgo]].
  - exists [KInsert (map pr_id qs) tt]. split; [exact E|]; split; [exact Ht|]; split; [discriminate|split; [constructor|exact Hgo]].
Qed.

Lemma reported_app ls ls' id : reported ls id -> reported (ls ++ ls') id.
Proof. intros (owner & qs & H1 & H2). exists owner, qs. split; [apply in_or_app; now left|exact H2]. Qed.
Lemma working_on_skip tr id e : working_on tr id -> (forall i k, e <> Op (EUnexecutable i k)) -> working_on (tr ++ [e]) id.
Proof.
  intros (before & known & after & -> & H) He. exists before, known, (after ++ [e]). split; [now rewrite <- app_assoc|].
  intros i k [Hin|[E|[]]]%in_app_or; [now apply (H i k)|now apply (He i k)].
Qed.

Lemma classic_question (e : timed node_event) : (exists i k, e = Op (EUnexecutable i k)) \/ ~ exists i k, e = Op (EUnexecutable i k).
Proof.
  destruct e as [t|r|d u|e]; try (right; now intros (i & k & E)).
  destruct e; try (right; now intros (i & k & E)). left. eauto.
Qed.

Record registry_ok (n : node) (ls : list sys_label) (s : system) : Prop := {
  ro_check : checking n ls (sy_registry s) (sy_check s);
  ro_sound : forall id, id ∈ sy_registry s -> reported ls id;
  ro_request : forall id, sy_request s = Some id -> working_on (prove_events ls) id
}.

Lemma working_on_step tr id e cur : (forall i, cur = Some i -> working_on tr i) ->
  request_after e cur = Some id -> working_on (tr ++ [e]) id.
Proof.
  intros H He. destruct (classic_question e) as [(i & k & ->)|Hne].
  - cbn in He. injection He as ->. exists tr, k, []. split; [reflexivity|]. now intros i k'.
  - apply working_on_skip; [|intros i k E; apply Hne; eauto]. apply H. revert He Hne. clear.
    destruct e as [t|r|d u|e]; try easy. destruct e; try easy. cbn. intros _ Hne. exfalso. apply Hne. eauto.
Qed.

Lemma registry_run fuel n ls s : sys_run fuel n ls s -> registry_ok n ls s.
Proof.
  induction 1 as [|ls s l s' _ [Hc Hs Hr] Hstep].
  - split; cbn.
    + apply check_new. now intros owner qs id [].
    + intros id Hid. now apply elem_of_empty in Hid.
    + discriminate.
  - unfold prove_events in *. rename Hr into Hr0.
    inversion Hstep; subst; cbn [sy_check sy_registry sy_request] in *; split;
      unfold prove_events; cbn [sy_check sy_registry sy_request]; rewrite ?flat_map_snoc; cbv beta iota; rewrite ?app_nil_r;
      try (now apply checking_snoc); try (now apply Hr0); try (intros id Hid; now apply reported_app, Hs).
    + intros id. now apply working_on_step.
    + now apply checking_step in Hc.
    + intros id Hid. assert (Hd : (exists ids u, mk a = KInsert ids u /\ id ∈ ids) \/ id ∈ registry).
      { destruct (mk a); [now right|now right|]. cbn in Hid. apply elem_of_union in Hid as [Hid|Hid]; [left|now right].
        apply elem_of_list_to_set in Hid. eauto. }
      destruct Hd as [(ids & u & E & Hin)|Hd]; [|now apply reported_app, Hs].
      apply reported_app. revert E. clear -Hc Hin. intros E.
      assert (G : forall p, checking n ls registry p -> match p with Ret _ => True | Do A mk k =>
        forall a, mk a = KInsert ids u -> reported ls id end).
      { intros p [H|owner H|owner qs before after -> Ha H]; cbn; try discriminate.
        intros u' [= <- _]. exists owner, qs. split; [apply in_or_app; right; now left|]. now apply elem_of_list_In. }
      now apply (G _ Hc a).
Qed.

Lemma last_incl {A} (P : A -> Prop) : forall (c a b d : list A) u v,
  a ++ u :: b = c ++ v :: d -> P u -> (forall x, In x d -> ~ P x) -> incl a c.
Proof.
  induction c as [|x c IH]; intros a b d u v E Hu Hd.
  - destruct a as [|y a]; [apply incl_nil_l|]. injection E as -> E. exfalso. apply (Hd u); [|exact Hu].
    rewrite <- E. apply in_or_app. right. now left.
  - destruct a as [|y a]; [apply incl_nil_l|]. injection E as -> E. intros z [<-|Hz]; [now left|right].
    now apply (IH a b d u v E Hu Hd).
Qed.

(** After the answer and the next step of the background task, the ids are in the registry. *)
Lemma registered fuel n ls s before owner qs middle e after id : sys_run fuel n ls s ->
  ls = before ++ said_unexecutable owner qs :: middle ++ LCheck e :: after -> In id (map pr_id qs) ->
  id ∈ sy_registry s.
Proof.
  intros Hrun E Hid. destruct (registry_run _ _ _ _ Hrun) as [Hc _ _].
  assert (Hin : forall l, In (said_unexecutable owner qs) l -> all_in l (sy_registry s) -> id ∈ sy_registry s).
  { intros l H1 H2. now apply (H2 owner qs). }
  assert (Hls : In (said_unexecutable owner qs) ls) by (rewrite E; apply in_or_app; right; now left).
  destruct Hc as [H|owner' H|owner' qs' before' after' E' Ha H]; [now apply (Hin ls)|now apply (Hin ls)|].
  apply (Hin before'); [|exact H]. rewrite E in E'.
  change (said_unexecutable owner qs :: middle ++ LCheck e :: after) with ((said_unexecutable owner qs :: middle) ++ LCheck e :: after) in E'.
  rewrite app_assoc in E'. apply (last_incl (fun l => exists e, l = LCheck e)) in E'.
  - apply E'. apply in_or_app. right. now left.
  - eauto.
  - intros x Hx (e' & ->). now apply (Ha e').
Qed.

Lemma C73_registry_answers_proof fuel n ls1 id known ls2 s :
  sys_run fuel n (ls1 ++ LProve (Op (EUnexecutable id known)) :: ls2) s ->
  (known = true -> reported ls1 id) /\
  (forall before owner qs middle e after, ls1 = before ++ said_unexecutable owner qs :: middle ++ LCheck e :: after ->
     In id (map pr_id qs) -> known = true).
Proof.
  intros Hrun. apply sys_run_at in Hrun as (s1 & s2 & H1 & Hstep & _).
  assert (Hk : known = bool_decide (id ∈ sy_registry s1)).
  { inversion Hstep as [|A mk k a bid check registry request Hf E1 E2 E3| | | | | |]; subst. now rewrite E2 in Hf. }
  split.
  - intros ->. symmetry in Hk. apply bool_decide_eq_true in Hk. now apply (ro_sound _ _ _ (registry_run _ _ _ _ H1)).
  - intros before owner qs middle e after E Hid. rewrite Hk. apply bool_decide_eq_true.
    now apply (registered fuel n ls1 s1 before owner qs middle e after id H1 E).
Qed.

Lemma C73_aborted_proof fuel n ls1 e ls2 s : sys_run fuel n (ls1 ++ LProve e :: ls2) s -> aborts e ->
  exists id, working_on (prove_events ls1) id /\ reported ls1 id.
Proof.
  intros Hrun Ha. apply sys_run_at in Hrun as (s1 & s2 & H1 & Hstep & _).
  assert (Hf : answer_fits (sy_registry s1) (sy_request s1) e).
  { inversion Hstep as [|A mk k a bid check registry request Hf E1 E2 E3| | | | | |]; subst. exact Hf. }
  destruct (registry_run _ _ _ _ H1) as [_ Hs Hr].
  assert (G : exists id, sy_request s1 = Some id /\ id ∈ sy_registry s1).
  { destruct Ha as [(p & ->)|[(k & i & ->)|(k & i & m & ->)]]; exact Hf. }
  destruct G as (id & E & Hid). exists id. auto.
Qed.

Lemma C73_never_proved_proof fuel n before owner qs middle1 e middle2 after x s id :
  sys_run fuel n (before ++ said_unexecutable owner qs :: middle1 ++ LCheck e :: middle2 ++ LRound :: after) s ->
  In id (map pr_id qs) -> In (LProve (Op x)) after -> ~ fulfils id x.
Proof.
  intros Hrun Hid. revert s x Hrun.
  assert (G : forall s, sys_run fuel n (before ++ said_unexecutable owner qs :: middle1 ++ LCheck e :: middle2 ++ LRound :: after) s ->
    upto (asked_false id) (op_fulfils id) (sy_prove s) /\ forall x, In (LProve (Op x)) after -> ~ fulfils id x).
  { induction after as [|l after IH] using rev_ind; intros s Hrun.
    - split; [|now intros x []].
      replace (before ++ said_unexecutable owner qs :: middle1 ++ LCheck e :: middle2 ++ [LRound])
        with ((before ++ said_unexecutable owner qs :: middle1 ++ LCheck e :: middle2) ++ [LRound]) in Hrun
        by (rewrite <- !app_assoc; cbn; now rewrite <- !app_assoc).
      apply sys_run_snoc in Hrun as (s0 & _ & Hstep). inversion Hstep; subst. apply prove_upto.
    - replace (before ++ said_unexecutable owner qs :: middle1 ++ LCheck e :: middle2 ++ LRound :: after ++ [l])
        with ((before ++ said_unexecutable owner qs :: middle1 ++ LCheck e :: middle2 ++ LRound :: after) ++ [l]) in Hrun
        by (rewrite <- !app_assoc; cbn; rewrite <- !app_assoc; cbn; now rewrite <- !app_assoc).
      apply sys_run_snoc in Hrun as (s0 & H0 & Hstep). destruct (IH s0 H0) as [Hu Hx].
      assert (Hin : id ∈ sy_registry s0) by (now eapply registered; [exact H0|reflexivity|exact Hid]).
      assert (Gx : forall (P : Prop), (P /\ (forall x, l = LProve (Op x) -> ~ fulfils id x)) ->
                   P /\ forall x, In (LProve (Op x)) (after ++ [l]) -> ~ fulfils id x).
      { intros P [HP Hl]. split; [exact HP|]. intros x [Hi|[Hi|[]]]%in_app_or; [now apply Hx|now apply Hl]. }
      apply Gx. inversion Hstep; subst; cbn [sy_prove sy_registry] in *;
        try (split; [first [exact Hu|apply prove_upto]|discriminate]).
      destruct (Hu a) as [Es|[Hb Hn]].
      + rewrite Es in H. cbn in H. now rewrite bool_decide_true in H by exact Hin.
      + split; [exact Hn|]. intros x [= E] Hf. apply Hb. exists x. auto. }
  intros s x Hrun Hx. now apply (G s Hrun).
Qed.

(** ** Returning *)

Lemma prove_all_panics fuel n : forall qs tr, runs (prove_all fuel n qs) tr RPanic -> exists q, In q qs /\ pr_mode q = 0%Z.
Proof.
  induction qs as [|q qs IH]; intros tr H; cbn [prove_all] in H; [now destruct H|].
  apply prove_request_runs in H as [(seg & rest & _ & _ & H & _)|[H|[H _]]]; [|inversion H; subst; eexists; split; [now left|assumption]|easy].
  apply IH in H as (q' & H1 & H2). exists q'. split; [now right|exact H2].
Qed.
Lemma prove_panics fuel n tr : runs (prove fuel n) tr RPanic ->
  exists f qs q, In (EList f (Ok qs)) (ops tr) /\ In q qs /\ pr_mode q = 0%Z.
Proof.
  unfold prove, ask. cbn [flow_map flow_bind runs].
  intros (o & r1 & -> & H). destruct o as [owner|e]; [|now destruct H]. cbn [flow_map flow_bind runs] in H.
  destruct H as (t & r2 & -> & a & r3 & -> & H). destruct a as [qs|e]; [|now destruct H].
  apply prove_all_panics in H as (q & H1 & H2).
  exists (RequestFilter status_assigned t (Some owner) None 1), qs, q. split; [|auto]. cbn. auto.
Qed.
Lemma bid_panics fuel n tr : ~ runs (bid fuel n) tr RPanic.
Proof.
  intros H. apply bid_runs in H. destruct H as [(_ & _ & H & _)|(owner & u & u' & q & tr2 & o & -> & _ & H)]; [now apply H|].
  now destruct o as [[]|].
Qed.

Lemma C74_returned_proof fuel n ls s ok : sys_run fuel n ls s -> sy_returned s = Some ok ->
  exists before l, ls = before ++ [l] /\
    ((ok = true /\ exists e, l = LMonitor (TErr e)) \/
     (ok = false /\ l = LMonitor TPanic) \/
     (ok = false /\ l = LPanic /\ exists earlier last f qs q,
        prove_events before = earlier ++ last /\ runs (prove fuel n) last RPanic /\
        In (EList f (Ok qs)) (ops last) /\ In q qs /\ pr_mode q = 0%Z)).
Proof.
  intros Hrun. destruct Hrun as [|ls s l s' Hrun Hstep]; [discriminate|]. intros Hok. exists ls, l. split; [reflexivity|].
  destruct (C73_rounds_proof _ _ _ _ Hrun) as (done & b & p & _ & Ep & _ & _ & Hb & Hp).
  inversion Hstep; subst; cbn [sy_returned sy_bid sy_prove] in *; try discriminate; try congruence.
  - left. injection Hok as <-. eauto.
  - right. left. injection Hok as <-. auto.
  - right. right. injection Hok as <-. split; [reflexivity|]. split; [reflexivity|].
    destruct H as [-> | ->]; [apply reaches_runs in Hb; now apply bid_panics in Hb|].
    apply reaches_runs in Hp. destruct (prove_panics _ _ _ Hp) as (f & qs & q & H1 & H2 & H3).
    exists (concat (map snd done)), p, f, qs, q. auto.
Qed.

Lemma C74_last_proof fuel n before l after s : sys_run fuel n (before ++ l :: after) s ->
  (l = LPanic \/ exists r, l = LMonitor r /\ r <> TOk tt) -> after = [].
Proof.
  intros Hrun Hl. destruct after as [|l' after] using rev_ind; [reflexivity|]. exfalso. clear IHafter.
  assert (Hr : forall s, sys_run fuel n (before ++ l :: after) s -> sy_returned s <> None).
  { clear Hrun s. induction after as [|x after IH] using rev_ind; intros s Hrun.
    - apply sys_run_snoc in Hrun as (s0 & _ & Hstep). inversion Hstep; subst; cbn; try discriminate;
        destruct Hl as [Hl|(r & Hl & Hne)]; try discriminate; injection Hl as <-; now destruct Hne.
    - change (l :: after ++ [x]) with ((l :: after) ++ [x]) in Hrun. rewrite app_assoc in Hrun.
      apply sys_run_snoc in Hrun as (s0 & H0 & Hstep). apply IH in H0. exfalso. apply H0. now inversion Hstep. }
  change (l :: after ++ [l']) with ((l :: after) ++ [l']) in Hrun. rewrite app_assoc in Hrun.
  apply sys_run_snoc in Hrun as (s0 & H0 & Hstep). apply (Hr s0 H0). now inversion Hstep.
Qed.

(** ** Going on *)

(** Every question has an answer that is [ok]. *)
Fixpoint receptive {Ev X} (ok : Ev -> Prop) (p : flow Ev X) : Prop :=
  match p with
  | Ret _ => True
  | Do A mk k => (exists a, ok (mk a)) /\ forall a, receptive ok (k a)
  end.
Lemma receptive_bind {Ev X Y} (ok : Ev -> Prop) (p : flow Ev X) (f : X -> flow Ev Y) :
  receptive ok p -> (forall x, receptive ok (f x)) -> receptive ok (flow_bind p f).
Proof.
  intros Hp Hf. induction p as [x|A mk k IH]; cbn [flow_bind receptive] in *; [apply Hf|].
  destruct Hp as [H1 H2]. split; [exact H1|]. intros a. now apply IH.
Qed.
Lemma receptive_map {Ev Ev' X} (g : Ev -> Ev') (ok : Ev' -> Prop) (p : flow Ev X) :
  receptive (fun e => ok (g e)) p -> receptive ok (flow_map g p).
Proof.
  intros Hp. induction p as [x|A mk k IH]; cbn [flow_map receptive] in *; [exact I|].
  destruct Hp as [H1 H2]. split; [exact H1|]. intros a. now apply IH.
Qed.
Lemma receptive_ask {Ev A} (ok : Ev -> Prop) (mk : A -> Ev) : (exists a, ok (mk a)) -> receptive ok (ask mk).
Proof. intros H. split; [exact H|]. intros a. exact I. Qed.
Lemma receptive_retry {Ev T} (ok : timed Ev -> Prop) (op : flow Ev (result T rpc_error)) :
  (forall t, ok (Clock t)) -> (forall r, ok (Random r)) -> (forall d u, ok (Slept d u)) ->
  receptive (fun e => ok (Op e)) op -> forall fuel, receptive ok (with_retry fuel op).
Proof.
  intros H1 H2 H3 Hop fuel. unfold with_retry, retry_operation.
  apply receptive_bind; [apply receptive_ask; exists 0; apply H1|]. intros start.
  generalize initial_interval. induction fuel as [|fuel IH]; intros interval; cbn [retry]; [exact I|].
  apply receptive_bind; [now apply receptive_map|]. intros [x|e]; [exact I|]. destruct (transient e); [|exact I].
  apply receptive_bind.
  - unfold next_pause. apply receptive_bind; [apply receptive_ask; exists 0; apply H1|]. intros t.
    destruct (_ <? _); [exact I|]. apply receptive_bind; [apply receptive_ask; exists 0; apply H2|]. intros r.
    destruct (_ <=? _); exact I.
  - intros [d|]; [|exact I]. apply receptive_bind; [apply receptive_ask; exists tt; apply H3|]. intros u. apply IH.
Qed.
Lemma reaches_receptive {Ev X} (ok : Ev -> Prop) : forall tr (p rest : flow Ev X),
  reaches p tr rest -> receptive ok p -> receptive ok rest.
Proof.
  induction tr as [|e tr IH]; intros p rest H Hp; cbn [reaches] in H; [now subst|].
  destruct p as [|A mk k]; [easy|]. destruct H as (a & _ & H). destruct Hp as [_ Hp]. now apply (IH (k a)).
Qed.

Ltac any_answer := apply receptive_ask; first [exists (Err no_error); exact I|exists TPanic; exact I|exists tt; exact I|exists 0; exact I].
Lemma submit_receptive registry cur fuel op : receptive (fun e => answer_fits registry cur (Op e)) op ->
  receptive (answer_fits registry cur) (submit fuel op).
Proof.
  intros H. unfold submit. apply receptive_bind; [|intros r; exact I]. now apply receptive_retry.
Qed.
Lemma prove_receptive registry cur fuel n : receptive (answer_fits registry cur) (prove fuel n).
Proof.
  unfold prove. apply receptive_bind; [apply receptive_map; any_answer|]. intros [owner|e]; [|exact I].
  apply receptive_bind; [apply receptive_map; any_answer|]. intros t.
  apply receptive_bind; [apply receptive_map; any_answer|]. intros [qs|e]; [|exact I].
  induction qs as [|q qs IH]; cbn [prove_all]; [exact I|]. unfold prove_request. cbv zeta.
  assert (Hgo : forall d : bool, receptive (answer_fits registry cur) (if d then prove_all fuel n qs else Ret RUnfinished)).
  { intros []; [exact IH|exact I]. }
  assert (Hfail : receptive (answer_fits registry cur) (submit fuel (fail_operation n (pr_id q)))).
  { apply submit_receptive. unfold fail_operation. apply receptive_bind; [any_answer|]. intros [x|x]; [any_answer|exact I]. }
  apply receptive_bind; [apply receptive_map, receptive_ask; eexists; reflexivity|]. intros [].
  { apply receptive_bind; [exact Hfail|exact Hgo]. }
  destruct (extract_artifact_name _); [|exact I]. apply receptive_bind; [apply receptive_map; any_answer|]. intros [program|e]; [|exact I].
  destruct (extract_artifact_name _); [|exact I]. apply receptive_bind; [apply receptive_map; any_answer|]. intros [stdin|e]; [|exact I].
  destruct (proving_mode _) as [mode|]; [|exact I]. apply receptive_bind.
  { apply receptive_map. unfold proving_task. apply receptive_bind; [any_answer|]. intros [key|e| |]; try exact I.
    apply receptive_bind; [any_answer|]. intros [c|e| |]; try exact I.
    apply receptive_bind; [any_answer|]. intros [[a b]|e| |]; exact I. }
  intros [[[[proof|] cycles] time]|].
  - apply receptive_bind; [apply receptive_map; any_answer|]. intros _. apply receptive_bind; [|exact Hgo].
    apply submit_receptive. unfold fulfill_operation. apply receptive_bind; [any_answer|]. intros [x|x]; [any_answer|exact I].
  - apply receptive_bind; [apply receptive_map; any_answer|]. intros _. exact I.
  - apply receptive_bind; [exact Hfail|exact Hgo].
Qed.
Lemma bid_receptive fuel n : receptive (fun _ => True) (bid fuel n).
Proof.
  unfold bid. apply receptive_bind; [apply receptive_map; any_answer|]. intros [owner|e]; [|exact I].
  apply receptive_bind; [apply receptive_map; any_answer|]. intros t.
  apply receptive_bind; [apply receptive_map; any_answer|]. intros [qs|e]; [|exact I]. destruct (negb _); [exact I|].
  apply receptive_bind; [apply receptive_map; any_answer|]. intros t'.
  apply receptive_bind; [apply receptive_map; any_answer|]. intros [[|q [|]]|e]; try exact I.
  apply receptive_bind; [|now intros [[]|]]. apply receptive_retry; try easy. unfold bid_operation.
  apply receptive_bind; [any_answer|]. intros [nonce|e]; [|exact I].
  apply receptive_bind; [any_answer|]. intros [[d|]|e]; try exact I.
  apply receptive_bind; [any_answer|]. intros now. cbv zeta. destruct (_ <? _); [exact I|any_answer].
Qed.

Lemma C74_goes_on_proof fuel n ls s : sys_run fuel n ls s -> sy_returned s = None -> (12 <= fuel)%nat ->
  well_timed 0 (bid_events ls) -> well_timed 0 (prove_events ls) ->
  exists l s', sys_step fuel n s l s' /\
    ((exists e, l = LBid e) \/ (exists e, l = LProve e) \/ l = LRound \/ l = LPanic).
Proof.
  intros Hrun Hs Hf Hwb Hwp.
  destruct (C73_rounds_proof _ _ _ _ Hrun) as (done & b & p & Eb & Ep & _ & _ & Hb & Hp).
  rewrite Eb in Hwb. rewrite Ep in Hwp. apply well_timed_app in Hwb as [_ (tb & Hwb)]. apply well_timed_app in Hwp as [_ (tp & Hwp)].
  pose proof (reaches_receptive _ _ _ _ Hb (bid_receptive fuel n)) as Rb.
  pose proof (reaches_receptive _ _ _ _ Hp (prove_receptive (sy_registry s) (sy_request s) fuel n)) as Rp.
  destruct s as [sb sp sc reg req ret]. cbn [sy_bid sy_prove sy_registry sy_request sy_returned] in *. subst ret.
  destruct sb as [rb|A mk k].
  - destruct sp as [rp|A mk k].
    + apply reaches_runs in Hb. apply reaches_runs in Hp. pose proof (bid_total _ _ _ _ _ Hb Hwb Hf) as Hrb.
      assert (Hrp : ended rp \/ rp = RPanic).
      { destruct (prove_runs _ _ _ _ _ Hp Hwp Hf) as [(e & _ & ->)|[(o & t & e & _ & ->)|(o & t & qs & seg & [(-> & _)|(q1 & q & q2 & last & _ & _ & _ & H)])]];
          cbn; auto. inversion H; cbn; auto. }
      destruct Hrp as [Hrp| ->].
      * exists LRound. eexists. split; [|auto]. apply step_round; [|exact Hrp]. destruct Hrb as [-> |(e & ->)]; exact I.
      * exists LPanic. eexists. split; [|auto]. apply step_panic. auto.
    + destruct Rp as [(a & Ha) _]. exists (LProve (mk a)). eexists. split; [now apply step_prove|eauto].
  - destruct Rb as [(a & _) _]. exists (LBid (mk a)). eexists. split; [apply step_bid|eauto].
Qed.
