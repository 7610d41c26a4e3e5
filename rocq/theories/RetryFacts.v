(** Facts about retried operations. *)
From Coq Require Import ZifyBool ZifyN ZifyNat.
From Verif Require Export RetrySpec.
Open Scope N_scope.

Lemma starts_with_spec part : forall s, starts_with s part = true <-> exists after, s = part ++ after.
Proof.
  induction part as [|p part IH]; intros s; cbn [starts_with app].
  - split; [eauto|]. intros _. now destruct s.
  - destruct s as [|x s]; cbn [starts_with].
    + split; [discriminate|]. intros [after H]. discriminate.
    + rewrite andb_true_iff, N.eqb_eq, IH. split.
      * intros [-> [after ->]]. eauto.
      * intros [after H]. injection H as -> ->. eauto.
Qed.

(** Searching in the lower case of a text, for a text of ASCII characters that does not end in [i]. *)
Definition plain (mark : list N) : Prop := Forall (fun d => d < 128 /\ ~ 65 <= d <= 90) mark /\ last mark <> Some 105.

Definition plainb (mark : list N) : bool :=
  forallb (fun d => (d <? 128) && negb ((65 <=? d) && (d <=? 90))) mark &&
  match last mark with Some x => negb (x =? 105) | None => false end.
Lemma plainb_ok mark : plainb mark = true -> plain mark /\ mark <> [].
Proof.
  unfold plainb, plain. rewrite andb_true_iff, forallb_forall. intros [H1 H2]. split; [split|].
  - apply List.Forall_forall. intros d Hin. specialize (H1 d Hin). lia.
  - intros E. now rewrite E in H2.
  - intros ->. discriminate.
Qed.

Lemma reads_lower c d : d < 128 -> ~ 65 <= d <= 90 -> c <> 304 ->
  reads_as c d <-> lower_char c = [d].
Proof.
  intros Hd Hn Hc. unfold reads_as, lower_char. destruct ((65 <=? c) && (c <=? 90)) eqn:E1.
  - split; [intros H; f_equal; lia|]. intros [= <-]. lia.
  - destruct (N.eqb_spec c 8490) as [->|]; [split; [intros H; f_equal; lia|intros [= <-]; lia]|].
    destruct (N.eqb_spec c 304); [easy|]. split; [intros H; f_equal; lia|intros [= <-]; lia].
Qed.

Lemma lower_one c : c <> 304 -> exists x, lower_char c = [x].
Proof.
  intros Hc. unfold lower_char. destruct (_ && _); [eauto|]. destruct (c =? 8490); [eauto|].
  destruct (N.eqb_spec c 304); [easy|eauto].
Qed.

Lemma starts_lower mark : plain mark -> forall m,
  starts_with (to_lowercase m) mark = true <-> exists part after, m = part ++ after /\ Forall2 reads_as part mark.
Proof.
  induction mark as [|d mark IH]; intros [Hp Hl] m.
  - split; [intros _; exists [], m; auto|]. intros _. now destruct (to_lowercase m).
  - apply Forall_cons in Hp. destruct Hp as [[Hd Hn] Hp].
    destruct m as [|c m].
    { split; [discriminate|]. intros (part & after & E & H). inversion H; subst. discriminate. }
    change (to_lowercase (c :: m)) with (lower_char c ++ to_lowercase m).
    destruct (N.eq_dec c 304) as [->|Hc].
    + split.
      * change (lower_char 304) with [105; 775]. cbn [app starts_with]. rewrite andb_true_iff, N.eqb_eq. intros [-> H].
        destruct mark as [|d' mark]; [now destruct Hl|]. cbn [starts_with] in H. rewrite andb_true_iff, N.eqb_eq in H.
        apply Forall_cons in Hp. lia.
      * intros (part & after & E & H). inversion H as [|c' d' part' mark' H1 H2]; subst. injection E as <- _.
        unfold reads_as in H1. lia.
    + destruct (lower_one c Hc) as [x Hx]. rewrite Hx. cbn [app starts_with]. rewrite andb_true_iff, N.eqb_eq.
      assert (Hpl : plain mark). { split; [exact Hp|]. destruct mark; [discriminate|exact Hl]. }
      rewrite (IH Hpl). split.
      * intros [-> (part & after & -> & H)]. exists (c :: part), after. split; [reflexivity|]. constructor; [|exact H].
        apply (reads_lower c x Hd Hn Hc). exact Hx.
      * intros (part & after & E & H). inversion H as [|c' d' part' mark' H1 H2]; subst. injection E as <- ->.
        apply (reads_lower _ d Hd Hn Hc) in H1. rewrite Hx in H1. injection H1 as ->. eauto.
Qed.

Lemma contains_lower mark : plain mark -> mark <> [] -> forall m,
  contains (to_lowercase m) mark = true <->
  exists before part after, m = before ++ part ++ after /\ Forall2 reads_as part mark.
Proof.
  intros Hp Hne. induction m as [|c m IH].
  - destruct mark as [|d mark]; [easy|]. split; [discriminate|].
    intros (before & part & after & E & H). inversion H; subst. now destruct before.
  - assert (Hdef : forall l, contains l mark = starts_with l mark || match l with [] => false | _ :: r => contains r mark end)
      by (intros []; reflexivity).
    assert (Hright : (exists before part after, c :: m = before ++ part ++ after /\ Forall2 reads_as part mark) <->
      (exists part after, c :: m = part ++ after /\ Forall2 reads_as part mark) \/ contains (to_lowercase m) mark = true).
    { rewrite IH. split.
      - intros ([|y before] & part & after & E & H); [left; exists part, after; auto|]. injection E as <- ->. right.
        exists before, part, after. auto.
      - intros [(part & after & E & H)|(before & part & after & -> & H)]; [now exists [], part, after|].
        now exists (c :: before), part, after. }
    rewrite Hright, <- (starts_lower mark Hp (c :: m)).
    change (to_lowercase (c :: m)) with (lower_char c ++ to_lowercase m).
    destruct (N.eq_dec c 304) as [->|Hc].
    + change (lower_char 304) with [105; 775]. cbn [app]. rewrite Hdef, orb_true_iff. rewrite (Hdef (775 :: _)).
      assert (starts_with (775 :: to_lowercase m) mark = false) as ->.
      { destruct mark as [|d mark]; [easy|]. cbn [starts_with]. destruct (N.eqb_spec d 775) as [->|]; [|reflexivity].
        destruct Hp as [Hp _]. apply Forall_cons in Hp. lia. }
      cbn [orb]. reflexivity.
    + destruct (lower_one c Hc) as [x ->]. cbn [app]. rewrite Hdef, orb_true_iff. reflexivity.
Qed.

Lemma transient_spec e : transient e = true <-> temporary e.
Proof.
  destruct e as [c m|m]; cbn [transient temporary].
  - destruct c; split; intros H; try discriminate; try reflexivity; try tauto;
      repeat destruct H as [H|H]; discriminate.
  - assert (Hm : Forall (fun mark => plain mark /\ mark <> []) marks).
    { apply List.Forall_forall. intros mark Hin. apply plainb_ok. revert mark Hin. apply forallb_forall. reflexivity. }
    transitivity (existsb (contains (to_lowercase m)) marks = true).
    + cbn [marks map existsb]. rewrite orb_false_r, !orb_assoc. reflexivity.
    + rewrite existsb_exists. rewrite List.Forall_forall in Hm. split.
      * intros (mark & Hin & H). destruct (Hm mark Hin) as [H1 H2]. apply (contains_lower mark H1 H2) in H.
        destruct H as (b & p & a & H). exists mark, b, p, a. easy.
      * intros (mark & b & p & a & Hin & H). exists mark. split; [exact Hin|]. destruct (Hm mark Hin) as [H1 H2].
        apply (contains_lower mark H1 H2). eauto.
Qed.

Lemma ops_app {Ev} (a b : list (timed Ev)) : ops (a ++ b) = ops a ++ ops b.
Proof. unfold ops. apply flat_map_app. Qed.
Lemma ops_map {Ev} (l : list Ev) : ops (map Op l) = l.
Proof. unfold ops. induction l as [|x l IH]; [reflexivity|]. cbn [map flat_map app]. now f_equal. Qed.
Lemma pauses_app {Ev} (a b : list (timed Ev)) : pauses (a ++ b) = pauses a ++ pauses b.
Proof. unfold pauses. apply flat_map_app. Qed.
Lemma pauses_map {Ev} (l : list Ev) : pauses (map Op l) = [].
Proof. unfold pauses. induction l as [|x l IH]; [reflexivity|exact IH]. Qed.
Lemma well_timed_ops {Ev} (l : list Ev) now rest : well_timed now (map Op l ++ rest) <-> well_timed now rest.
Proof. induction l as [|x l IH]; [reflexivity|exact IH]. Qed.

(** Where [retry] can stop after a temporary error. *)
Definition out_of_time (timeout : option N) (start interval : N) {Ev} (tr : list (timed Ev)) : Prop :=
  exists v t d, timeout = Some v /\ In (Clock t) tr /\ interval / 2 <= d <= interval * 3 / 2 /\ v < t - start + d.

Lemma pause_range i r : i / 2 <= pause_of i r <= i * 3 / 2.
Proof.
  unfold pause_of. pose proof (N.mod_lt r (i + 1) ltac:(lia)). set (m := r mod (i + 1)) in *. clearbody m.
  split; [lia|]. replace (i * 3) with (i + i * 2) by lia. rewrite N.div_add by lia. lia.
Qed.

Lemma next_pause_runs {Ev} timeout start interval (tr : list (timed Ev)) o : runs (next_pause timeout start interval) tr o ->
  ops tr = [] /\ pauses tr = [] /\
  match o with
  | Some d => interval / 2 <= d <= interval * 3 / 2 /\ exists t r, tr = [Clock t; Random r] /\
      forall v, timeout = Some v -> t - start + d <= v
  | None => out_of_time timeout start interval tr
  end.
Proof.
  unfold next_pause. intros H. apply runs_bind in H. destruct H as (t1 & t2 & t & -> & H1 & H).
  apply runs_ask in H1. subst t1. cbv zeta in H.
  destruct timeout as [v|].
  - destruct (N.ltb_spec v (t - start)) as [Hv|Hv].
    + cbn [runs] in H. destruct H as [-> ->]. split; [reflexivity|]. split; [reflexivity|].
      exists v, t, (interval / 2). split; [reflexivity|]. split; [now left|]. split; [|lia].
      pose proof (pause_range interval 0) as Hp. lia.
    + apply runs_bind in H. destruct H as (t3 & t4 & r & -> & H1 & H). apply runs_ask in H1. subst t3. cbv zeta in H.
      pose proof (pause_range interval r) as Hp.
      destruct (N.leb_spec (t - start + pause_of interval r) v) as [Hd|Hd]; cbn [runs] in H; destruct H as [-> ->].
      * split; [reflexivity|]. split; [reflexivity|]. split; [exact Hp|]. exists t, r. split; [reflexivity|]. intros v' [= <-]. exact Hd.
      * split; [reflexivity|]. split; [reflexivity|]. exists v, t, (pause_of interval r).
        split; [reflexivity|]. split; [now left|]. auto.
  - apply runs_bind in H. destruct H as (t3 & t4 & r & -> & H1 & H). apply runs_ask in H1. subst t3.
    cbv zeta in H. cbn [runs] in H. destruct H as [-> ->].
    split; [reflexivity|]. split; [reflexivity|]. split; [apply pause_range|]. exists t, r. split; [reflexivity|]. discriminate.
Qed.

(** [ps] are pauses for the intervals that start with [interval]. *)
Fixpoint pauses_from (interval : N) (ps : list N) : Prop :=
  match ps with
  | [] => True
  | d :: r => interval / 2 <= d <= interval * 3 / 2 /\ pauses_from (next_interval interval) r
  end.

Lemma iter_next n i : Nat.iter n next_interval (next_interval i) = Nat.iter (S n) next_interval i.
Proof. induction n as [|n IH]; [reflexivity|]. cbn [Nat.iter nat_rect] in *. unfold Nat.iter in *. cbn in *. now rewrite IH. Qed.

Lemma retry_runs {Ev T} (op : flow Ev (result T rpc_error)) timeout start : forall fuel interval tr o,
  runs (retry fuel timeout start interval op) tr o ->
  exists before,
    Forall (fun a => runs op (fst a) (Err (snd a)) /\ transient (snd a) = true) before /\
    length (pauses tr) = length before /\ pauses_from interval (pauses tr) /\
    (forall v now, timeout = Some v -> well_timed now tr -> start <= now -> pauses tr <> [] ->
       now - start + total_time (pauses tr) <= v) /\
    match o with
    | None => length before = fuel /\ ops tr = concat (map fst before)
    | Some r => exists last, (length before < fuel)%nat /\ ops tr = concat (map fst before) ++ last /\ runs op last r /\
        forall e, r = Err e -> transient e = true -> out_of_time timeout start (Nat.iter (length before) next_interval interval) tr
    end.
Proof.
  induction fuel as [|fuel IH]; intros interval tr o; cbn [retry].
  { intros [-> ->]. exists []. split; [constructor|]. cbn. split; [reflexivity|]. split; [exact I|]. split; [easy|]. auto. }
  intros H. apply runs_bind in H. destruct H as (t1 & t2 & out & -> & H1 & H).
  apply runs_map in H1. destruct H1 as (t0 & -> & H1).
  assert (Stop : forall r t3, t2 = t3 -> ops t3 = [] -> pauses t3 = [] -> out = r ->
    (forall e, r = Err e -> transient e = true -> out_of_time timeout start interval t3) ->
    exists before,
      Forall (fun a => runs op (fst a) (Err (snd a)) /\ transient (snd a) = true) before /\
      length (pauses (map Op t0 ++ t2)) = length before /\ pauses_from interval (pauses (map Op t0 ++ t2)) /\
      (forall v now, timeout = Some v -> well_timed now (map Op t0 ++ t2) -> start <= now -> pauses (map Op t0 ++ t2) <> [] ->
         now - start + total_time (pauses (map Op t0 ++ t2)) <= v) /\
      exists last, (length before < S fuel)%nat /\ ops (map Op t0 ++ t2) = concat (map fst before) ++ last /\ runs op last r /\
        forall e, r = Err e -> transient e = true ->
          out_of_time timeout start (Nat.iter (length before) next_interval interval) (map Op t0 ++ t2)).
  { intros r t3 -> Ho Hp -> Ht. exists []. split; [constructor|].
    rewrite pauses_app, pauses_map, Hp, ops_app, ops_map, Ho, !app_nil_r. cbn [app length concat map].
    split; [reflexivity|]. split; [exact I|]. split; [easy|]. exists t0. split; [lia|]. split; [reflexivity|].
    split; [exact H1|]. intros e He Hte. destruct (Ht e He Hte) as (v & t & d & E & Hin & Hd).
    exists v, t, d. split; [exact E|]. split; [|exact Hd]. apply in_or_app. now right. }
  destruct out as [x|e].
  { cbn [runs] in H. destruct H as [-> ->]. apply (Stop (Ok x) []); auto. intros e. discriminate. }
  destruct (transient e) eqn:He.
  2: { cbn [runs] in H. destruct H as [-> ->]. apply (Stop (Err e) []); auto. intros e' [= <-]. congruence. }
  apply runs_bind in H. destruct H as (t3 & t4 & p & -> & H2 & H).
  apply next_pause_runs in H2. destruct H2 as (Ho & Hp & H2). destruct p as [d|].
  2: { cbn [runs] in H. destruct H as [-> ->]. rewrite app_nil_r in *. apply (Stop (Err e) t3); auto. }
  destruct H2 as (Hd & t & rr & -> & Hv).
  apply runs_bind in H. destruct H as (t5 & t6 & u & -> & H2 & H). apply runs_ask in H2. subst t5.
  destruct (IH _ _ _ H) as (before & Hb & Hl & Hpf & Htime & Hrest).
  exists ((t0, e) :: before). split; [constructor; [auto|exact Hb]|].
  assert (Ep : pauses (map Op t0 ++ [Clock t; Random rr] ++ [Slept d u] ++ t6) = d :: pauses t6).
  { rewrite pauses_app, pauses_map. reflexivity. }
  assert (Eo : ops (map Op t0 ++ [Clock t; Random rr] ++ [Slept d u] ++ t6) = t0 ++ ops t6).
  { rewrite ops_app, ops_map. reflexivity. }
  rewrite Ep, Eo. split; [cbn [length]; now rewrite Hl|]. split; [split; assumption|]. split.
  { intros v now Ev' Hw Hst _. apply well_timed_ops in Hw. cbn [app well_timed] in Hw. destruct Hw as [Hn Hw].
    specialize (Hv v Ev'). cbn [total_time fold_right]. specialize (Htime v (t + d) Ev' Hw).
    change (fold_right N.add 0 (pauses t6)) with (total_time (pauses t6)).
    destruct (pauses t6) as [|d' ps]; [cbn; lia|]. specialize (Htime ltac:(lia) ltac:(easy)). lia. }
  cbn [length map concat]. destruct o as [r|].
  - destruct Hrest as (last & Hlen & Ho' & Hlast & Hout). exists last. split; [lia|].
    split; [rewrite Ho'; now rewrite app_assoc|]. split; [exact Hlast|].
    intros e' Er Ht'. destruct (Hout e' Er Ht') as (v & t' & d' & E & Hin & Hd').
    exists v, t', d'. split; [exact E|]. split; [apply in_or_app; right; right; right; right; exact Hin|].
    rewrite iter_next in Hd'. exact Hd'.
  - destruct Hrest as [Hlen Ho']. split; [lia|]. now rewrite Ho'.
Qed.

(** ** The number of attempts *)

Fixpoint halves (interval : N) (n : nat) : N :=
  match n with O => 0 | S n' => interval / 2 + halves (next_interval interval) n' end.

Lemma halves_le : forall ps interval, pauses_from interval ps -> halves interval (length ps) <= total_time ps.
Proof.
  induction ps as [|d ps IH]; intros interval; cbn [pauses_from length halves total_time fold_right]; [lia|].
  intros [H1 H2]. specialize (IH _ H2). unfold total_time in IH. lia.
Qed.

Lemma halves_mono : forall n m interval, (n <= m)%nat -> halves interval n <= halves interval m.
Proof.
  induction n as [|n IH]; intros m interval H; [cbn; lia|]. destruct m as [|m]; [lia|]. cbn [halves].
  specialize (IH m (next_interval interval) ltac:(lia)). lia.
Qed.

Lemma interval_iter n : Nat.iter n next_interval initial_interval = interval_no n.
Proof. reflexivity. Qed.

Lemma halves_total n : halves initial_interval n = total_time (map (fun k => interval_no k / 2) (seq 0 n)).
Proof.
  enough (H : forall n k, halves (interval_no k) n = total_time (map (fun k => interval_no k / 2) (seq k n))) by exact (H n 0%nat).
  clear n. induction n as [|n IH]; intros k; [reflexivity|]. cbn [halves seq map total_time fold_right].
  unfold total_time in IH. rewrite <- (IH (S k)). reflexivity.
Qed.

(** At most eleven pauses fit into two minutes. *)
Lemma default_pauses ps : pauses_from initial_interval ps -> total_time ps <= default_timeout -> (length ps <= 11)%nat.
Proof.
  intros H1 H2. apply halves_le in H1. destruct (le_lt_dec (length ps) 11) as [|H]; [assumption|].
  pose proof (halves_mono 12 (length ps) initial_interval H) as H3.
  assert (H4 : default_timeout < halves initial_interval 12) by (vm_compute; reflexivity). lia.
Qed.

(** ** Whole operations *)

Lemma retry_operation_runs {Ev T} (op : flow Ev (result T rpc_error)) timeout fuel tr o :
  runs (retry_operation fuel op timeout) tr o ->
  exists start rest before, tr = Clock start :: rest /\
    Forall (fun a => runs op (fst a) (Err (snd a)) /\ transient (snd a) = true) before /\
    length (pauses tr) = length before /\ pauses_from initial_interval (pauses tr) /\
    (forall v now, timeout = Some v -> well_timed now tr -> total_time (pauses tr) <= v) /\
    match o with
    | None => length before = fuel /\ ops tr = concat (map fst before)
    | Some r => exists last, (length before < fuel)%nat /\ ops tr = concat (map fst before) ++ last /\ runs op last r /\
        forall e, r = Err e -> transient e = true -> out_of_time timeout start (interval_no (length before)) rest
    end.
Proof.
  unfold retry_operation. intros H. apply runs_bind in H. destruct H as (t1 & t2 & start & -> & H1 & H).
  apply runs_ask in H1. subst t1. destruct (retry_runs op timeout start _ _ _ _ H) as (before & H1 & H2 & H3 & H4 & H5).
  exists start, t2, before. split; [reflexivity|]. split; [exact H1|]. split; [exact H2|]. split; [exact H3|]. split.
  - intros v now E Hw. cbn [app well_timed] in Hw. destruct Hw as [_ Hw]. specialize (H4 v start E Hw ltac:(lia)).
    change (pauses ([Clock start] ++ t2)) with (pauses t2). destruct (pauses t2) as [|d ps]; [cbn; lia|].
    specialize (H4 ltac:(easy)). lia.
  - exact H5.
Qed.

Lemma with_retry_bounded {Ev T} (op : flow Ev (result T rpc_error)) fuel tr o now :
  runs (with_retry fuel op) tr o -> well_timed now tr -> (length (pauses tr) <= 11)%nat /\ ((12 <= fuel)%nat -> o <> None).
Proof.
  intros H Hw. destruct (retry_operation_runs op _ _ _ _ H) as (start & rest & before & Etr & H1 & H2 & H3 & H4 & H5).
  pose proof (default_pauses _ H3 (H4 _ _ eq_refl Hw)) as Hp. split; [exact Hp|]. intros Hf ->. destruct H5 as [H5 _]. lia.
Qed.

(** Results of a retried operation, without the times. *)
Inductive tried {Ev T} (op : flow Ev (result T rpc_error)) : list Ev -> result T rpc_error -> Prop :=
| tried_last tr r : runs op tr r -> tried op tr r
| tried_again tr e rest r : runs op tr (Err e) -> temporary e -> tried op rest r -> tried op (tr ++ rest) r.

Lemma tried_intro {Ev T} (op : flow Ev (result T rpc_error)) before last r :
  Forall (fun a => runs op (fst a) (Err (snd a)) /\ transient (snd a) = true) before -> runs op last r ->
  tried op (concat (map fst before) ++ last) r.
Proof.
  intros H Hl. induction H as [|[t e] before [H1 H2] H IH]; cbn [map concat app fst].
  - now apply tried_last.
  - rewrite <- app_assoc. apply (tried_again op t e); [exact H1|now apply transient_spec|exact IH].
Qed.

Lemma with_retry_tried {Ev T} (op : flow Ev (result T rpc_error)) fuel tr r :
  runs (with_retry fuel op) tr (Some r) -> tried op (ops tr) r.
Proof.
  intros H. destruct (retry_operation_runs op _ _ _ _ H) as (start & rest & before & Etr & H1 & H2 & H3 & H4 & last & Hl & Ho & Hr & _).
  rewrite Ho. now apply tried_intro.
Qed.

(** An interrupted operation: all attempts so far ended with temporary errors. *)
Lemma with_retry_none {Ev T} (op : flow Ev (result T rpc_error)) fuel tr :
  runs (with_retry fuel op) tr None ->
  exists before, ops tr = concat (map fst before) /\
    Forall (fun a => runs op (fst a) (Err (snd a)) /\ temporary (snd a)) before.
Proof.
  intros H. destruct (retry_operation_runs op _ _ _ _ H) as (start & rest & before & Etr & H1 & H2 & H3 & H4 & _ & Ho).
  exists before. split; [exact Ho|]. apply (Forall_impl _ _ _ H1). intros a [Ha Hb]. split; [exact Ha|now apply transient_spec].
Qed.

Lemma well_timed_app {Ev} (a b : list (timed Ev)) : forall now, well_timed now (a ++ b) ->
  well_timed now a /\ exists later, well_timed later b.
Proof.
  induction a as [|e a IH]; intros now H; [split; [exact I|eauto]|].
  destruct e; cbn [app well_timed] in *; try (now apply IH).
  destruct H as [H1 H2]. apply IH in H2. tauto.
Qed.

Lemma pauses_from_lookup : forall ps interval k d, pauses_from interval ps -> nth_error ps k = Some d ->
  Nat.iter k next_interval interval / 2 <= d <= Nat.iter k next_interval interval * 3 / 2.
Proof.
  induction ps as [|p ps IH]; intros interval k d; cbn [pauses_from].
  - intros _. destruct k; discriminate.
  - intros [Hp Hps]. destruct k as [|k]; cbn [nth_error].
    + intros [= <-]. exact Hp.
    + intros H. specialize (IH _ _ _ Hps H). now rewrite iter_next in IH.
Qed.

(** Replaying a concrete run. *)
Ltac replay :=
  lazymatch goal with
  | |- Flow.runs ?p _ _ =>
      let p' := eval hnf in p in change p with p';
      lazymatch p' with
      | Flow.Do _ _ _ => cbn [runs]; eexists; eexists; split; [reflexivity|]; replay
      | Flow.Ret _ => split; reflexivity
      end
  end.
