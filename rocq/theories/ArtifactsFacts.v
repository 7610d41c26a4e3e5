(** Facts about keys and downloads. *)
From Coq Require Import ZifyBool ZifyN ZifyNat.
From Verif Require Export ArtifactsSpec.

(** ** Keys *)

Lemma split_slash_ne s : split_slash s <> [].
Proof. destruct s as [|c s]; cbn; [easy|]. destruct (c =? slash)%N; [easy|]. now destruct (split_slash s). Qed.

Lemma split_slash_no s : ~ slash ∈ s -> split_slash s = [s].
Proof.
  induction s as [|c s IH]; intros H; cbn; [reflexivity|].
  rewrite elem_of_cons in H. destruct (N.eqb_spec c slash) as [->|]; [tauto|]. rewrite IH by tauto. reflexivity.
Qed.

Lemma split_slash_two p s : exists x y l, split_slash (p ++ slash :: s) = x :: y :: l.
Proof.
  induction p as [|c p (x & y & l & IH)]; cbn [app split_slash].
  - rewrite N.eqb_refl. pose proof (split_slash_ne s). destruct (split_slash s) as [|y l]; [easy|]. eauto.
  - rewrite IH. destruct (c =? slash)%N; eauto.
Qed.

Lemma split_slash_app p s : ~ slash ∈ s -> last (split_slash (p ++ slash :: s)) = Some s.
Proof.
  intros H. induction p as [|c p IH]; cbn [app split_slash].
  - rewrite N.eqb_refl, split_slash_no by exact H. reflexivity.
  - destruct (split_slash_two p s) as (x & y & l & E). rewrite E in *. destruct (c =? slash)%N; exact IH.
Qed.

Lemma extract_total s : exists name, extract_artifact_name s = Some name /\ ~ slash ∈ name /\
  (s = name \/ exists p, s = p ++ slash :: name).
Proof.
  unfold extract_artifact_name. induction s as [|c s (name & H & Hn & Hs)]; cbn [split_slash].
  - exists []. split; [reflexivity|]. split; [apply not_elem_of_nil|now left].
  - destruct (N.eqb_spec c slash) as [->|Hc].
    + exists name. pose proof (split_slash_ne s). destruct (split_slash s) as [|x l]; [easy|].
      split; [exact H|]. split; [exact Hn|]. right. destruct Hs as [->|(p & ->)]; [now exists []|].
      now exists (slash :: p).
    + destruct Hs as [->|(p & ->)].
      * rewrite split_slash_no by exact Hn. exists (c :: name). split; [reflexivity|].
        split; [rewrite elem_of_cons; naive_solver|now left].
      * destruct (split_slash_two p name) as (x & y & l & E). rewrite E in *. exists name.
        split; [exact H|]. split; [exact Hn|]. right. now exists (c :: p).
Qed.

Lemma cut_unique a x a' x' : ~ slash ∈ a -> ~ slash ∈ a' -> a ++ slash :: x = a' ++ slash :: x' -> a = a' /\ x = x'.
Proof.
  revert a'. induction a as [|c a IH]; intros [|c' a'] H H'; cbn [app].
  - intros [= ->]. auto.
  - intros [= <- _]. exfalso. apply H'. left.
  - intros [= -> _]. exfalso. apply H. left.
  - rewrite elem_of_cons in H, H'. intros [= -> E]. destruct (IH a') as [-> ->]; tauto.
Qed.

Lemma prefix_no_slash t : ~ slash ∈ get_s3_prefix t.
Proof.
  assert (H : forallb (fun c => negb (c =? slash)%N) (get_s3_prefix t) = true) by (destruct t; reflexivity).
  intros Hin. apply elem_of_list_In in Hin. rewrite forallb_forall in H. apply H in Hin. discriminate.
Qed.

Lemma prefix_inj t t' : get_s3_prefix t = get_s3_prefix t' -> t = t'.
Proof. destruct t, t'; try reflexivity; intros H; vm_compute in H; discriminate. Qed.

Lemma key_inj t id t' id' : get_s3_key t id = get_s3_key t' id' -> t = t' /\ id = id'.
Proof.
  unfold get_s3_key. intros H. apply cut_unique in H; try apply prefix_no_slash. destruct H as [H ->].
  split; [now apply prefix_inj|reflexivity].
Qed.

(** ** Fetching one chunk *)

Lemma fetch_chunk_spec server : forall left n,
  match fetch_chunk server left n with
  | Some data => exists m, (n <= m < n + left)%nat /\ server m = AData data /\
      forall j, (n <= j < m)%nat -> server j = AFail
  | None => (forall j, (n <= j < n + left)%nat -> server j = AFail) \/
      exists m, (n <= m < n + left)%nat /\ server m = ABodyFail /\ forall j, (n <= j < m)%nat -> server j = AFail
  end.
Proof.
  induction left as [|left IH]; intros n; cbn [fetch_chunk].
  - left. intros j Hj. lia.
  - destruct (server n) as [| |data] eqn:E.
    + specialize (IH (S n)). destruct (fetch_chunk server left (S n)) as [data|].
      * destruct IH as (m & Hm & Hd & Hj). exists m. split; [lia|]. split; [exact Hd|].
        intros j Hjm. destruct (Nat.eq_dec j n) as [->|]; [exact E|]. apply Hj. lia.
      * destruct IH as [IH|(m & Hm & Hd & Hj)].
        -- left. intros j Hjn. destruct (Nat.eq_dec j n) as [->|]; [exact E|]. apply IH. lia.
        -- right. exists m. split; [lia|]. split; [exact Hd|].
           intros j Hjm. destruct (Nat.eq_dec j n) as [->|]; [exact E|]. apply Hj. lia.
    + right. exists n. split; [lia|]. split; [exact E|]. intros j Hj. lia.
    + exists n. split; [lia|]. split; [exact E|]. intros j Hj. lia.
Qed.

Lemma fetch_succeeds server : succeeds server <-> exists data, fetch_chunk server max_attempts 0 = Some data.
Proof.
  pose proof (fetch_chunk_spec server max_attempts 0) as H. unfold max_attempts in *.
  destruct (fetch_chunk server 5 0) as [data|]; split.
  - eauto.
  - intros _. destruct H as (m & Hm & Hd & Hj). exists m. split; [lia|]. split; [eauto|]. intros j Hjm. apply Hj. lia.
  - intros (n & Hn & (data & Hd) & Hm). exfalso. destruct H as [H|(m & Hm' & Hb & Hj)].
    + rewrite H in Hd by lia. discriminate.
    + destruct (lt_eq_lt_dec n m) as [[Hlt| ->]|Hgt].
      * rewrite Hj in Hd by lia. discriminate.
      * congruence.
      * rewrite Hm in Hb by lia. discriminate.
  - intros (data & Hd). discriminate.
Qed.

(** ** Chunks and groups *)

Lemma chunks_concat {X} k (l : list X) : (0 < k)%nat -> forall fuel, (length l <= fuel)%nat ->
  concat (chunks_of fuel k l) = l.
Proof.
  intros Hk fuel. revert l. induction fuel as [|fuel IH]; intros l Hl.
  - destruct l; [reflexivity|cbn in Hl; lia].
  - destruct l as [|x l]; [reflexivity|]. cbn [chunks_of concat].
    rewrite IH; [apply take_drop|]. rewrite drop_length. cbn in *. lia.
Qed.

Lemma chunk_count chunk size : (0 < chunk)%nat -> (0 < size)%nat -> forall i,
  (i < (size + chunk - 1) / chunk)%nat <-> (i * chunk < size)%nat.
Proof.
  intros Hc Hs i. split; intros H.
  - apply Nat.lt_le_trans with (i * chunk + 1)%nat; [lia|].
    assert ((i + 1) * chunk <= size + chunk - 1)%nat; [|lia].
    transitivity ((size + chunk - 1) / chunk * chunk)%nat; [apply Nat.mul_le_mono_r; lia|].
    rewrite Nat.mul_comm. apply Nat.mul_div_le. lia.
  - apply Nat.div_le_lower_bound; [lia|]. nia.
Qed.

Lemma starts_length chunk size : length (starts chunk size) = ((size + chunk - 1) / chunk)%nat.
Proof. unfold starts. now rewrite map_length, seq_length. Qed.

Lemma starts_elem chunk size i s : (0 < chunk)%nat -> (0 < size)%nat ->
  (i, s) ∈ starts chunk size <-> s = (i * chunk)%nat /\ (s < size)%nat.
Proof.
  intros Hc Hs. unfold starts. rewrite elem_of_list_In, in_map_iff. split.
  - intros (j & Hj & Hin). apply pair_equal_spec in Hj. destruct Hj as [<- <-]. apply in_seq in Hin.
    split; [reflexivity|]. apply (chunk_count chunk size Hc Hs). lia.
  - intros [-> H]. exists i. split; [reflexivity|]. apply in_seq. apply (chunk_count chunk size Hc Hs) in H. lia.
Qed.

Lemma groups_concat chunk size conc gs : groups chunk size conc = Some gs -> concat gs = starts chunk size.
Proof.
  unfold groups. cbv zeta. destruct (Nat.min conc (length (starts chunk size)) =? 0)%nat; [discriminate|].
  intros H. injection H as <-. apply chunks_concat; lia.
Qed.

Lemma groups_some chunk size conc : (0 < chunk)%nat -> (0 < size)%nat -> (0 < conc)%nat ->
  exists gs, groups chunk size conc = Some gs.
Proof.
  intros Hc Hs Hn. unfold groups. cbv zeta.
  assert (0 < length (starts chunk size))%nat.
  { rewrite starts_length. apply (chunk_count chunk size Hc Hs). lia. }
  destruct (Nat.eqb_spec (Nat.min conc (length (starts chunk size))) 0); [lia|]. eauto.
Qed.

(** Every position is in one range. *)
Lemma ranges_cover chunk size : (0 < chunk)%nat ->
  flat_map (fun '(i, s) => seq s (last_of chunk size s + 1 - s)) (starts chunk size) = seq 0 size.
Proof.
  intros Hc. destruct (Nat.eq_dec size 0) as [->|Hs0].
  { unfold starts. replace ((0 + chunk - 1) / chunk)%nat with 0%nat; [reflexivity|].
    symmetry. apply Nat.div_small. lia. }
  unfold starts. set (n := ((size + chunk - 1) / chunk)%nat).
  assert (H : forall k, (k <= n)%nat ->
    flat_map (fun '(i, s) => seq s (last_of chunk size s + 1 - s)) (map (fun i => (i, (i * chunk)%nat)) (seq 0 k))
    = seq 0 (Nat.min (k * chunk) size)).
  { induction k as [|k IH]; intros Hk; [reflexivity|].
    rewrite seq_S, map_app, flat_map_app, IH by lia. cbn [map flat_map]. rewrite app_nil_r.
    assert (Hlt : (k * chunk < size)%nat) by (apply (chunk_count chunk size); lia).
    unfold last_of. cbn [Nat.add].
    replace (Nat.min (k * chunk) size) with (k * chunk)%nat by lia.
    replace (Nat.min (S k * chunk) size) with (k * chunk + (Nat.min (S k * chunk) size - k * chunk))%nat by lia.
    rewrite seq_app. f_equal. f_equal. lia. }
  rewrite H by lia. f_equal.
  assert (size <= n * chunk)%nat; [|lia].
  destruct (Nat.lt_ge_cases (n * chunk) size) as [Hlt|]; [|assumption].
  apply (chunk_count chunk size) in Hlt; [|lia|lia]. unfold n in Hlt. lia.
Qed.

(** ** Tasks *)

Definition good (file : bytes) (chunk : nat) (m : nat * bytes) : Prop :=
  (fst m * chunk < length file)%nat /\
  snd m = range file (fst m * chunk) (last_of chunk (length file) (fst m * chunk)).

Lemma run_group_spec file server chunk g : honest file server ->
  Forall (fun '(i, s) => s = (i * chunk)%nat /\ (s < length file)%nat) g ->
  Forall (good file chunk) (fst (run_group server chunk (length file) g)) /\
  (snd (run_group server chunk (length file) g) = true <->
     Forall (fun '(i, s) => succeeds (server s (last_of chunk (length file) s))) g) /\
  (snd (run_group server chunk (length file) g) = true ->
     map fst (fst (run_group server chunk (length file) g)) = map fst g).
Proof.
  intros Hh. induction g as [|[i s] g IH]; intros Hg; cbn [run_group].
  { split; [constructor|]. split; [|reflexivity]. split; [constructor|reflexivity]. }
  apply Forall_cons in Hg. destruct Hg as [[-> Hi] Hg]. specialize (IH Hg). destruct IH as (IH1 & IH2 & IH3).
  pose proof (fetch_succeeds (server (i * chunk)%nat (last_of chunk (length file) (i * chunk)))) as Hf.
  pose proof (fetch_chunk_spec (server (i * chunk)%nat (last_of chunk (length file) (i * chunk))) max_attempts 0) as Hs.
  destruct (fetch_chunk _ max_attempts 0) as [data|].
  - destruct Hs as (m & _ & Hd & _). apply Hh in Hd.
    destruct (run_group server chunk (length file) g) as [sent ok]. cbn [fst snd map] in *.
    split; [constructor; [split; assumption|exact IH1]|]. split.
    + rewrite Forall_cons, <- IH2. split; [|tauto]. intros H. split; [|exact H]. apply Hf. eauto.
    + intros H. f_equal. auto.
  - cbn [fst snd map]. split; [constructor|]. split; [|discriminate]. split; [discriminate|].
    rewrite Forall_cons. intros [H _]. apply Hf in H. destruct H. discriminate.
Qed.

(** ** Assembly *)

Lemma range_length file first last : (last < length file)%nat -> length (range file first last) = (last + 1 - first)%nat.
Proof. intros H. unfold range. rewrite take_length, drop_length. lia. Qed.

Lemma range_lookup (file : list N) first last j : (first <= j <= last)%nat ->
  (range file first last : list N) !! (j - first)%nat = file !! j.
Proof. intros H. unfold range. rewrite lookup_take by lia. rewrite lookup_drop. f_equal. lia. Qed.

Lemma write_good (file : list N) chunk (res : list N) m : (0 < chunk)%nat -> length res = length file -> good file chunk m ->
  exists res' : list N, write_chunk chunk (length file) res m = Some res' /\ length res' = length file /\
    forall j, (j < length file)%nat -> res' !! j = if (j / chunk =? fst m)%nat then file !! j else res !! j.
Proof.
  intros Hc Hl [Hi Hd]. destruct m as [i data]. cbn [fst snd] in *. unfold write_chunk.
  assert (Hn : (length data = Nat.min (i * chunk + chunk) (length file) - i * chunk)%nat).
  { rewrite Hd, range_length; unfold last_of; lia. }
  set (n := (Nat.min (i * chunk + length data) (length file))%nat).
  assert (Hs : n = (i * chunk + length data)%nat) by lia.
  destruct (Nat.leb_spec (i * chunk) n); [|lia]. destruct (Nat.eqb_spec (n - i * chunk) (length data)); [|lia].
  cbn [andb]. eexists. split; [reflexivity|]. split.
  { rewrite !app_length, take_length, drop_length. lia. }
  intros j Hj. destruct (Nat.eqb_spec (j / chunk) i) as [E|E].
  - assert (i * chunk <= j < i * chunk + chunk)%nat as Hr.
    { subst i. pose proof (Nat.div_mod j chunk ltac:(lia)). pose proof (Nat.mod_upper_bound j chunk ltac:(lia)). lia. }
    rewrite lookup_app_r by (rewrite take_length; lia). rewrite take_length.
    replace (Nat.min (i * chunk) (length res)) with (i * chunk)%nat by lia.
    rewrite lookup_app_l by lia. rewrite Hd. apply range_lookup. unfold last_of. lia.
  - destruct (Nat.lt_ge_cases j (i * chunk)) as [Hlt|Hge].
    + rewrite lookup_app_l by (rewrite take_length; lia). apply lookup_take. lia.
    + assert (i * chunk + chunk <= j)%nat.
      { destruct (Nat.lt_ge_cases j (i * chunk + chunk)) as [Hlt|]; [|assumption]. exfalso. apply E.
        symmetry. apply (Nat.div_unique j chunk i (j - i * chunk)); lia. }
      rewrite lookup_app_r by (rewrite take_length; lia). rewrite take_length.
      rewrite lookup_app_r by lia. rewrite lookup_drop. f_equal. lia.
Qed.

Lemma assemble_good (file : list N) chunk : (0 < chunk)%nat -> forall ms (res : list N), length res = length file -> Forall (good file chunk) ms ->
  exists res' : list N, assemble chunk (length file) res ms = Some res' /\ length res' = length file /\
    forall j, (j < length file)%nat -> (In (j / chunk)%nat (map fst ms) \/ res !! j = file !! j) -> res' !! j = file !! j.
Proof.
  intros Hc. induction ms as [|m ms IH]; intros res Hl Hg; cbn [assemble].
  - exists res. split; [reflexivity|]. split; [exact Hl|]. intros j Hj [[]|H]; exact H.
  - apply Forall_cons in Hg. destruct Hg as [Hm Hg].
    destruct (write_good file chunk res m Hc Hl Hm) as (r1 & -> & Hl1 & H1).
    destruct (IH r1 Hl1 Hg) as (r2 & -> & Hl2 & H2). exists r2. split; [reflexivity|]. split; [exact Hl2|].
    intros j Hj H. apply H2; [exact Hj|]. rewrite (H1 j Hj). destruct (Nat.eqb_spec (j / chunk) (fst m)) as [E|E].
    + now right.
    + destruct H as [[H|H]|H]; [congruence|now left|now right].
Qed.

Lemma interleaving_perm {X} (ls : list (list X)) l : interleaving ls l -> l ≡ₚ concat ls.
Proof.
  induction 1 as [ls H|before x l after rest H IH].
  - induction H as [|l ls -> H IH]; [reflexivity|exact IH].
  - rewrite IH, !concat_app. cbn [concat app]. now rewrite Permutation_middle.
Qed.

Lemma interleaving_concat {X} (ls : list (list X)) : interleaving ls (concat ls).
Proof.
  enough (H : forall pre, Forall (fun l => l = []) pre -> interleaving (pre ++ ls) (concat ls)) by (apply (H []); constructor).
  induction ls as [|l ls IH]; intros pre Hpre.
  { apply il_done. rewrite app_nil_r. exact Hpre. }
  induction l as [|x l IHl]; cbn [concat app].
  - specialize (IH (pre ++ [[]])). rewrite <- app_assoc in IH. apply IH. apply Forall_app. split; [exact Hpre|]. now repeat constructor.
  - apply il_step. exact IHl.
Qed.

Lemma download_chunks_spec (file : list N) server chunk conc arrivals rs :
  honest file server -> (0 < chunk)%nat -> (0 < conc)%nat -> (0 < length file)%nat ->
  tasks server chunk (length file) conc = Some rs -> interleaving (map fst rs) arrivals ->
  (all_succeed server chunk (length file) /\ download_chunks server chunk (length file) conc arrivals = DOk file) \/
  (~ all_succeed server chunk (length file) /\ download_chunks server chunk (length file) conc arrivals = DErr).
Proof.
  intros Hh Hc Hn Hs Ht Hi. unfold download_chunks. rewrite Ht.
  destruct (groups_some chunk (length file) conc Hc Hs Hn) as [gs Hgs].
  assert (Hall : forall g, In g gs -> Forall (fun '(i, s) => s = (i * chunk)%nat /\ (s < length file)%nat) g).
  { intros g Hg. apply Forall_forall. intros [i s] Hin. apply (starts_elem chunk (length file) i s Hc Hs).
    rewrite <- (groups_concat _ _ _ _ Hgs). apply elem_of_list_In, in_concat. exists g. split; [exact Hg|].
    now apply elem_of_list_In. }
  unfold tasks in Ht. rewrite Hgs in Ht. cbn [option_map] in Ht. injection Ht as <-.
  apply interleaving_perm in Hi.
  assert (Hgood : Forall (good file chunk) arrivals).
  { rewrite Hi. apply Forall_forall. intros m Hm. apply elem_of_list_In, in_concat in Hm.
    destruct Hm as (l & Hl & Hm). rewrite map_map in Hl. apply in_map_iff in Hl. destruct Hl as (g & <- & Hg).
    destruct (run_group_spec file server chunk g Hh (Hall g Hg)) as (H & _). rewrite Forall_forall in H.
    apply H. now apply elem_of_list_In. }
  destruct (assemble_good file chunk Hc arrivals (replicate (length file) 0%N)) as (res & -> & Hl & Hr);
    [apply replicate_length|exact Hgood|].
  assert (Hok : forallb snd (map (run_group server chunk (length file)) gs) = true <-> all_succeed server chunk (length file)).
  { rewrite forallb_forall. split.
    - intros H i Hi'.
      assert (Hin : (i, (i * chunk)%nat) ∈ concat gs).
      { rewrite (groups_concat _ _ _ _ Hgs). apply starts_elem; auto. }
      apply elem_of_list_In, in_concat in Hin. destruct Hin as (g & Hg & Hin).
      specialize (H _ (in_map _ _ _ Hg)). destruct (run_group_spec file server chunk g Hh (Hall g Hg)) as (_ & H' & _).
      apply H' in H. rewrite Forall_forall in H. apply elem_of_list_In in Hin. exact (H _ Hin).
    - intros H x Hx. apply in_map_iff in Hx. destruct Hx as (g & <- & Hg).
      destruct (run_group_spec file server chunk g Hh (Hall g Hg)) as (_ & H' & _). apply H'.
      pose proof (Hall g Hg) as Hg'. rewrite Forall_forall in Hg' |- *. intros [i s] Hin.
      destruct (Hg' _ Hin) as [-> Hlt]. apply H. exact Hlt. }
  destruct (forallb snd (map (run_group server chunk (length file)) gs)) eqn:E.
  - left. split; [apply Hok; reflexivity|]. f_equal. apply list_eq. intros j.
    destruct (Nat.lt_ge_cases j (length file)) as [Hj|Hj].
    2: { rewrite !lookup_ge_None_2 by lia. reflexivity. }
    apply Hr; [exact Hj|]. left.
    assert (Hin : ((j / chunk)%nat, (j / chunk * chunk)%nat) ∈ concat gs).
    { rewrite (groups_concat _ _ _ _ Hgs). apply starts_elem; auto. split; [reflexivity|].
      pose proof (Nat.mul_div_le j chunk). lia. }
    apply elem_of_list_In, in_concat in Hin. destruct Hin as (g & Hg & Hin).
    rewrite forallb_forall in E. specialize (E _ (in_map _ _ _ Hg)).
    destruct (run_group_spec file server chunk g Hh (Hall g Hg)) as (_ & _ & H'). specialize (H' E).
    apply (in_map fst) in Hin. rewrite <- H' in Hin. apply in_map_iff in Hin. destruct Hin as (m & Hm & Hin).
    cbn [fst] in Hm. rewrite <- Hm. apply in_map. apply elem_of_list_In. rewrite Hi. apply elem_of_list_In, in_concat.
    exists (fst (run_group server chunk (length file) g)). split; [|exact Hin]. apply in_map, in_map, Hg.
  - right. split; [|reflexivity]. rewrite <- Hok. discriminate.
Qed.

(** A wrong amount of data. *)
Lemma tasks_some server chunk size conc : (0 < chunk)%nat -> (0 < size)%nat ->
  (exists rs, tasks server chunk size conc = Some rs) <-> (0 < conc)%nat.
Proof.
  intros Hc Hs. unfold tasks. split.
  - intros [rs H]. destruct conc; [|lia]. unfold groups in H. cbv zeta in H. rewrite Nat.min_0_l in H. discriminate.
  - intros Hn. destruct (groups_some chunk size conc Hc Hs Hn) as [gs ->]. cbn. eauto.
Qed.

(** ** Retried downloads *)

Lemma download_retry_spec get : forall left n,
  match download_retry get left n with
  | DOk data => exists m, (n <= m < n + left)%nat /\ get m = AData data /\
      forall j d, (n <= j < m)%nat -> get j <> AData d
  | DErr => forall j d, (n <= j < n + left)%nat -> get j <> AData d
  | DPanic => False
  end.
Proof.
  induction left as [|left IH]; intros n; cbn [download_retry].
  - intros j d Hj. lia.
  - specialize (IH (S n)). destruct (get n) as [| |data] eqn:E; cbn [whole].
    3: { exists n. split; [lia|]. split; [exact E|]. intros j d Hj. lia. }
    all: destruct (download_retry get left (S n)) as [data| |]; [|..|destruct IH].
    all: try (intros j d Hj; destruct (Nat.eq_dec j n) as [->|]; [congruence|apply IH; lia]).
    all: destruct IH as (m & Hm & Hd & Hj); exists m; split; [lia|]; split; [exact Hd|];
      intros j d Hjm; destruct (Nat.eq_dec j n) as [->|]; [congruence|apply Hj; lia].
Qed.
