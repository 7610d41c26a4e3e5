(** The state-transition program: recovery from proofs, new roots, and binding of the state root. *)
From Verif Require Export SparseSim.
From Coq Require Import ZifyBool ZifyN ZifyNat.
Open Scope N_scope.
Lemma request_index_lt k : request_index k < 2 ^ 160.
Proof.
  unfold request_index.
  assert (Hl : length (take 20 (be_bytes 32 k)) = 20%nat)
    by (rewrite take_length, be_bytes_length; reflexivity).
  assert (Hp : 2 ^ 160 = 256 ^ N.of_nat (length (take 20 (be_bytes 32 k))))
    by (rewrite Hl; vm_compute; reflexivity).
  rewrite Hp. apply from_be_lt. apply bytes_ok_take, be_bytes_ok.
Qed.

Local Opaque request_index.

(** ** Recovering a sparse storage *)

Section recover.
  Context {V : Type} (cfg : tree_cfg V).
  Implicit Types (p : mproof V).

  Definition proof_index p : N := tc_index cfg (mp_key p).

  (** What has been proven for an index. *)
  Definition proven (proofs : list (mproof V)) (i : N) : option (option V) :=
    mp_value <$> List.find (fun p => proof_index p =? i) proofs.

  Lemma proven_some proofs p :
    NoDup (map proof_index proofs) -> p ∈ proofs -> proven proofs (proof_index p) = Some (mp_value p).
  Proof.
    unfold proven. induction proofs as [|q proofs IH]; intros Hn Hp; [now apply elem_of_nil in Hp|].
    cbn [map] in Hn. apply NoDup_cons in Hn as [Hq Hn]. cbn [List.find].
    apply elem_of_cons in Hp as [->|Hp]; [now rewrite N.eqb_refl|].
    destruct (N.eqb_spec (proof_index q) (proof_index p)) as [Heq|Hne]; [|now apply IH].
    destruct Hq. rewrite Heq. apply elem_of_list_fmap. eauto.
  Qed.

  Lemma find_index proofs i :
    i ∈ map proof_index proofs ->
    exists p, List.find (fun p => proof_index p =? i) proofs = Some p /\ p ∈ proofs /\ proof_index p = i.
  Proof.
    intros Hi. apply elem_of_list_fmap in Hi as (p & -> & Hp).
    destruct (List.find (fun q => proof_index q =? proof_index p) proofs) as [q|] eqn:Hf.
    - apply List.find_some in Hf as [H1 H2]. exists q. split; [reflexivity|]. split; [now apply elem_of_list_In|lia].
    - exfalso. apply elem_of_list_In in Hp. pose proof (List.find_none _ _ Hf _ Hp) as H.
      cbn in H. now rewrite N.eqb_refl in H.
  Qed.

  Lemma recover_loop_spec root proofs : forall s s',
    (forall i, is_Some (sp_inner s !! i) -> i ∈ sp_witnessed s) ->
    recover_loop cfg root proofs s = Ok s' <->
    Forall (fun p => verify_proof cfg root p = Ok tt) proofs /\
    NoDup (map proof_index proofs) /\
    (forall i, i ∈ map proof_index proofs -> i ∉ sp_witnessed s) /\
    s' = fold_left (fun s p => Sparse (match mp_value p with
                         | Some v => <[proof_index p := v]> (sp_inner s)
                         | None => sp_inner s
                         end) ({[proof_index p]} ∪ sp_witnessed s)) proofs s.
  Proof.
    induction proofs as [|p proofs IH]; intros s s' Hs; cbn [recover_loop map fold_left].
    - split.
      + intros [= <-]. split; [constructor|]. split; [constructor|]. split; [|reflexivity].
        intros i Hi. now apply elem_of_nil in Hi.
      + intros (_ & _ & _ & ->). reflexivity.
    - fold (proof_index p). rewrite Forall_cons, NoDup_cons.
      destruct (bool_decide_reflect (proof_index p ∈ sp_witnessed s)) as [Hw|Hw].
      { split; [discriminate|]. intros (_ & _ & H & _). destruct (H (proof_index p)); [left|exact Hw]. }
      destruct (verify_proof_unit cfg root p) as [Hv|[e Hv]]; rewrite Hv.
      2:{ split; [discriminate|]. intros [[H _] _]. discriminate. }
      rewrite IH.
      2:{ cbn. intros i Hi. destruct (mp_value p) as [v|].
          - destruct (decide (proof_index p = i)) as [<-|Hne]; [set_solver|].
            rewrite lookup_insert_ne in Hi by exact Hne. apply Hs in Hi. set_solver.
          - apply Hs in Hi. set_solver. }
      cbn [sp_witnessed]. split.
      + intros (H1 & H2 & H3 & H4). split; [now split|]. split; [split; [|exact H2]|split; [|exact H4]].
        * intros Hin. apply (H3 _ Hin). set_solver.
        * intros i Hi. apply elem_of_cons in Hi as [->|Hi]; [exact Hw|]. specialize (H3 _ Hi). set_solver.
      + intros ((_ & H1) & [H2 H3] & H4 & H5). split; [exact H1|]. split; [exact H3|]. split; [|exact H5].
        intros i Hi Hin. apply elem_of_union in Hin as [Hin|Hin].
        * apply elem_of_singleton in Hin as ->. contradiction.
        * apply (H4 i); [now right|exact Hin].
  Qed.

  (** The storage described by a list of proofs. *)
  Definition recovered (proofs : list (mproof V)) : sparse V :=
    fold_left (fun s p => Sparse (match mp_value p with
                         | Some v => <[proof_index p := v]> (sp_inner s)
                         | None => sp_inner s
                         end) ({[proof_index p]} ∪ sp_witnessed s)) proofs (Sparse ∅ ∅).

  Lemma recover_spec root proofs old s' :
    recover cfg root proofs old = Ok s' <->
    Forall (fun p => verify_proof cfg root p = Ok tt) proofs /\ NoDup (map proof_index proofs) /\
    s' = recovered proofs.
  Proof.
    unfold recover. rewrite recover_loop_spec.
    - split; intros H; [tauto|]. destruct H as (H1 & H2 & H3). repeat split; auto.
      intros i _. apply not_elem_of_empty.
    - intros i. cbn. rewrite lookup_empty. intros []. discriminate.
  Qed.

  Lemma recovered_spec proofs :
    NoDup (map proof_index proofs) ->
    (forall i, i ∈ sp_witnessed (recovered proofs) <-> i ∈ map proof_index proofs) /\
    (forall i, sp_inner (recovered proofs) !! i = match proven proofs i with Some o => o | None => None end).
  Proof.
    unfold recovered.
    assert (Hgen : forall s, NoDup (map proof_index proofs) ->
      (forall i, i ∈ map proof_index proofs -> sp_inner s !! i = None) ->
      let s' := fold_left (fun s p => Sparse (match mp_value p with
                         | Some v => <[proof_index p := v]> (sp_inner s)
                         | None => sp_inner s
                         end) ({[proof_index p]} ∪ sp_witnessed s)) proofs s in
      (forall i, i ∈ sp_witnessed s' <-> i ∈ map proof_index proofs \/ i ∈ sp_witnessed s) /\
      (forall i, sp_inner s' !! i =
                 match proven proofs i with Some o => o | None => sp_inner s !! i end)).
    { induction proofs as [|p proofs IH]; intros s Hn Hs; cbn zeta; cbn [fold_left map].
      - split; [|reflexivity]. intros i. split; [now right|]. intros [Hi|Hi]; [now apply elem_of_nil in Hi|exact Hi].
      - cbn [map] in Hn. apply NoDup_cons in Hn as [Hp Hn].
        destruct (IH (Sparse (match mp_value p with
                              | Some v => <[proof_index p := v]> (sp_inner s)
                              | None => sp_inner s
                              end) ({[proof_index p]} ∪ sp_witnessed s)) Hn) as [H1 H2]; [|split].
        + cbn [sp_inner]. intros i Hi.
          assert (Hne : proof_index p <> i) by (intros <-; contradiction).
          destruct (mp_value p); [rewrite lookup_insert_ne by exact Hne|]; apply Hs; now right.
        + intros i. rewrite (H1 i). cbn [sp_witnessed]. rewrite elem_of_union, elem_of_singleton, elem_of_cons.
          tauto.
        + intros i. rewrite (H2 i). unfold proven. cbn [List.find sp_inner].
          destruct (N.eqb_spec (proof_index p) i) as [<-|Hne].
          * destruct (List.find (fun q => proof_index q =? proof_index p) proofs) as [q|] eqn:Hf.
            { exfalso. apply List.find_some in Hf as [Hq1 Hq2]. apply Hp. apply elem_of_list_fmap.
              exists q. split; [lia|]. now apply elem_of_list_In. }
            cbn. destruct (mp_value p) as [v|]; [now rewrite lookup_insert|]. apply Hs. left.
          * destruct (List.find (fun q => proof_index q =? i) proofs); [reflexivity|]. cbn.
            destruct (mp_value p); [|reflexivity]. now rewrite lookup_insert_ne. }
    intros Hn. destruct (Hgen (Sparse ∅ ∅) Hn) as [H1 H2].
    - intros i _. apply lookup_empty.
    - split.
      + intros i. rewrite (H1 i). cbn. rewrite elem_of_empty. tauto.
      + intros i. rewrite (H2 i). cbn. now rewrite lookup_empty.
  Qed.

  (** Recovered from true proofs, the storage agrees with the tree. *)
  Lemma recovered_true m proofs :
    NoDup (map proof_index proofs) -> Forall (proof_true cfg m) proofs ->
    (forall p, p ∈ proofs -> mp_value p = m !! proof_index p) ->
    forall i, i ∈ sp_witnessed (recovered proofs) -> sp_inner (recovered proofs) !! i = m !! i.
  Proof.
    intros Hn Ht Hv i Hi. destruct (recovered_spec proofs Hn) as [H1 H2]. apply H1 in Hi.
    rewrite H2. apply elem_of_list_fmap in Hi as (p & -> & Hp). rewrite (proven_some proofs p Hn Hp).
    now apply Hv.
  Qed.

  (** ** The new root *)

  Lemma keyed_updates_spec proofs raw :
    (forall i v, (i, v) ∈ raw -> i ∈ map proof_index proofs) ->
    exists l, keyed_updates cfg proofs raw = Ok l /\
      map (fun kv => (tc_index cfg kv.1, kv.2)) l = raw /\
      (forall k v, (k, v) ∈ l -> exists p, p ∈ proofs /\ mp_key p = k).
  Proof.
    induction raw as [|[i v] raw IH]; intros Hr; cbn [keyed_updates].
    - exists []. split; [reflexivity|]. split; [reflexivity|]. intros k v Hk. now apply elem_of_nil in Hk.
    - destruct (find_index proofs i) as (p & Hf & Hp & Hi); [apply (Hr i v); left|].
      unfold proof_index in Hf. rewrite Hf.
      destruct IH as (l & H1 & H2 & H3); [intros j w Hj; apply (Hr j w); now right|].
      rewrite H1. eexists. split; [reflexivity|]. split.
      + cbn. rewrite H2. f_equal. unfold proof_index in Hi. now rewrite Hi.
      + intros k w Hk. apply elem_of_cons in Hk as [Hk|Hk]; [|now apply (H3 k w)].
        apply pair_equal_spec in Hk as [-> _]. eauto.
  Qed.

  Lemma write_all_raw raw : forall l (m : gmap N V) i,
    map (fun kv => (tc_index cfg kv.1, kv.2)) l = raw -> NoDup (map fst raw) ->
    (forall v, (i, v) ∈ raw -> write_all cfg l m !! i = Some v) /\
    ((forall v, (i, v) ∉ raw) -> write_all cfg l m !! i = m !! i).
  Proof.
    induction raw as [|[j w] raw IH]; intros [|[k u] l] m i Hl Hn; try discriminate.
    - split; [intros v Hv; now apply elem_of_nil in Hv|reflexivity].
    - cbn in Hl. injection Hl as Hk Hw Hl. subst w. cbn [map fst] in Hn. apply NoDup_cons in Hn as [Hj Hn].
      unfold write_all in *. cbn [fold_left fst snd]. rewrite Hk.
      destruct (IH l (<[j := u]> m) i Hl Hn) as [H1 H2]. split.
      + intros v Hv. apply elem_of_cons in Hv as [Hv|Hv]; [|now apply H1].
        apply pair_equal_spec in Hv as [-> ->]. rewrite H2; [apply lookup_insert|].
        intros v' Hv'. apply Hj. apply elem_of_list_fmap. now exists (j, v').
      + intros Hno. rewrite H2.
        * apply lookup_insert_ne. intros ->. apply (Hno u). left.
        * intros v Hv. apply (Hno v). now right.
  Qed.

  Lemma iter_raw_elem (s : sparse V) i v :
    (i, v) ∈ iter_raw s <-> i ∈ sp_witnessed s /\ sp_inner s !! i = Some v.
  Proof. unfold iter_raw. rewrite elem_of_list_filter, btree_iter_elem. reflexivity. Qed.

  Lemma iter_raw_nodup (s : sparse V) : NoDup (map fst (iter_raw s)).
  Proof.
    assert (H : NoDup (map fst (btree_iter (sp_inner s)))).
    { unfold btree_iter.
      assert (Hp : Permutation (merge_sort key_le (map_to_list (sp_inner s))) (map_to_list (sp_inner s)))
        by apply merge_sort_Permutation.
      apply NoDup_ListNoDup. eapply Permutation_NoDup; [apply Permutation_map; symmetry; exact Hp|].
      apply NoDup_ListNoDup. apply NoDup_fst_map_to_list. }
    unfold iter_raw. revert H. generalize (btree_iter (sp_inner s)). intros l.
    induction l as [|[j w] l IH]; [constructor|]. cbn [map fst]. intros H.
    apply NoDup_cons in H as [Hj Hn]. rewrite filter_cons.
    destruct (decide _); [|now apply IH]. cbn [map fst]. apply NoDup_cons. split; [|now apply IH].
    intros Hin. apply Hj. apply elem_of_list_fmap in Hin as ([j' w'] & -> & Hin).
    apply elem_of_list_filter in Hin as [_ Hin]. apply elem_of_list_fmap. now exists (j', w').
  Qed.

  Lemma new_root_sparse m m' proofs (s : sparse V) :
    NoDup (map proof_index proofs) ->
    Forall (proof_true cfg m) proofs ->
    (forall i, i ∈ sp_witnessed s <-> i ∈ map proof_index proofs) ->
    (forall i, i ∈ sp_witnessed s -> sp_inner s !! i = m' !! i) ->
    (forall i, i ∉ sp_witnessed s -> m' !! i = m !! i) ->
    (forall i, i ∈ sp_witnessed s -> is_Some (m !! i) -> is_Some (sp_inner s !! i)) ->
    calculate_new_root_sparse cfg (tree_root cfg m) proofs s = Ok (tree_root cfg m').
  Proof.
    intros Hn Ht Hw Hin Hout Hgrow. unfold calculate_new_root_sparse.
    destruct (bool_decide (sp_inner s = ∅) && match proofs with [] => true | _ => false end) eqn:Hempty.
    - apply andb_true_iff in Hempty as [He Hp]. destruct proofs; [|discriminate].
      f_equal. unfold tree_root. apply tree_hash_ext. intros i _. symmetry. apply Hout.
      rewrite Hw. apply not_elem_of_nil.
    - destruct (keyed_updates_spec proofs (iter_raw s)) as (l & H1 & H2 & H3).
      { intros i v Hi. apply iter_raw_elem in Hi as [Hi _]. now apply Hw. }
      rewrite H1. rewrite (calculate_new_root_spec cfg m proofs l Ht H3).
      f_equal. unfold tree_root. apply tree_hash_ext. intros i _.
      destruct (write_all_raw _ l m i H2 (iter_raw_nodup s)) as [Hyes Hno].
      destruct (decide (i ∈ sp_witnessed s)) as [Hi|Hi].
      + rewrite <- (Hin i Hi). destruct (sp_inner s !! i) as [v|] eqn:Hv.
        * apply Hyes. now apply iter_raw_elem.
        * rewrite Hno; [|intros v Hr; apply iter_raw_elem in Hr as [_ Hr]; congruence].
          destruct (m !! i) as [v|] eqn:Hm; [|reflexivity].
          destruct (Hgrow i Hi) as [w Hw']; [eauto|]. congruence.
      + rewrite Hno; [symmetry; now apply Hout|]. intros v Hr. now apply iter_raw_elem in Hr as [Hr _].
  Qed.
End recover.

(** ** Encodings are injective on typed data *)

Lemma word_length x : length (word x) = 32%nat.
Proof. apply be_bytes_length. Qed.

Lemma word_inj x y : is_word x -> is_word y -> word x = word y -> x = y.
Proof.
  unfold is_word, word. intros Hx Hy H. apply (be_bytes_inj 32); [| |exact H]; exact Hx || exact Hy.
Qed.

Lemma word_app_inj x y (a b : bytes) :
  is_word x -> is_word y -> word x ++ a = word y ++ b -> x = y /\ a = b.
Proof.
  intros Hx Hy H. apply app_inj_1 in H as [H1 H2]; [|now rewrite !word_length].
  split; [now apply word_inj|exact H2].
Qed.

Lemma is_address_word x : is_address x -> is_word x.
Proof.
  unfold is_address, is_word. intros H. eapply N.lt_trans; [exact H|]. now apply N.pow_lt_mono_r.
Qed.
Lemma is_u64_word x : is_u64 x -> is_word x.
Proof.
  unfold is_u64, is_word. intros H. eapply N.lt_trans; [exact H|]. now apply N.pow_lt_mono_r.
Qed.

Lemma abi_pair_inj a b c d :
  is_word a -> is_word b -> is_word c -> is_word d -> abi_pair a b = abi_pair c d -> a = c /\ b = d.
Proof.
  unfold abi_pair. intros Ha Hb Hc Hd H. apply word_app_inj in H as [-> H]; [|assumption..].
  split; [reflexivity|now apply word_inj].
Qed.

Lemma abi_account_inj a b : typed_account a -> typed_account b -> abi_account a = abi_account b -> a = b.
Proof.
  intros (A1 & A2 & A3 & A4) (B1 & B2 & B3 & B4) H. unfold abi_account in H.
  apply word_app_inj in H as [H1 H]; [|assumption..].
  apply word_app_inj in H as [H2 H]; [|now apply is_address_word..].
  apply word_app_inj in H as [H3 H]; [|now apply is_address_word..].
  apply word_inj in H; [|assumption..]. destruct a, b; cbn in *. congruence.
Qed.

Lemma abi_bool_inj a b : abi_bool a = abi_bool b -> a = b.
Proof.
  unfold abi_bool. intros H. apply word_inj in H; [destruct a, b; congruence|..];
    destruct a, b; unfold is_word; apply (N.lt_le_trans _ 2); try lia; change 2 with (2 ^ 1) at 1;
    now apply N.pow_le_mono_r.
Qed.

(** ** Verified proofs are true proofs *)

Section bind.
  Context {V : Type} (cfg : tree_cfg V) (E : env) (enc : V -> bytes) (typed : V -> Prop).
  Context (Hhash : forall v, tc_hash cfg v = keccak E (enc v)).
  Context (Hpair : forall l r, tc_pair cfg l r = keccak E (abi_pair l r)).
  Context (Henc : forall v w, typed v -> typed w -> enc v = enc w -> v = w).
  Context (HE : env_ok E).

  Definition strings (p : mproof V) : list bytes :=
    map enc (proof_values p) ++ map (fun lr => abi_pair lr.1 lr.2) (proof_pairs cfg p).

  Lemma pair_word l r : is_word (tc_pair cfg l r).
  Proof. rewrite Hpair. exact (keccak_lt _ HE _). Qed.

  Lemma hash_word v : is_word (tc_hash cfg v).
  Proof. rewrite Hhash. exact (keccak_lt _ HE _). Qed.

  Lemma tree_hash_word m h i : is_word (tree_hash cfg m h i).
  Proof.
    destruct h; cbn [tree_hash]; [|apply pair_word].
    destruct (m !! i); [apply hash_word|]. unfold is_word. now apply N.neq_0_lt_0, N.pow_nonzero.
  Qed.

  Lemma siblings_words m n : forall h i, Forall is_word (siblings cfg m n h i).
  Proof.
    induction n as [|n IH]; intros h i; cbn [siblings]; constructor; [apply tree_hash_word|apply IH].
  Qed.

  Lemma path_pairs_words path : forall i h lr,
    Forall is_word path -> is_word h -> lr ∈ path_pairs cfg path i h -> is_word lr.1 /\ is_word lr.2.
  Proof.
    induction path as [|x path IH]; intros i h lr Hp Hh Hin; cbn [path_pairs] in Hin.
    - now apply elem_of_nil in Hin.
    - apply Forall_cons in Hp as [Hx Hp]. apply elem_of_cons in Hin as [->|Hin].
      + destruct (N.even i); now split.
      + eapply IH; [exact Hp|apply pair_word|exact Hin].
  Qed.

  Lemma claimed_word (o : option V) : is_word (match o with Some v => tc_hash cfg v | None => 0 end).
  Proof.
    destruct o; [apply hash_word|]. unfold is_word. now apply N.neq_0_lt_0, N.pow_nonzero.
  Qed.

  Lemma proof_pairs_words p lr :
    Forall is_word (mp_path p) -> lr ∈ proof_pairs cfg p -> is_word lr.1 /\ is_word lr.2.
  Proof. intros Hp. unfold proof_pairs. apply path_pairs_words; [exact Hp|apply claimed_word]. Qed.

  Lemma free_pairs L (l : list (N * N)) :
    collision_free (keccak E) L ->
    (forall lr, lr ∈ l -> abi_pair lr.1 lr.2 ∈ L /\ is_word lr.1 /\ is_word lr.2) ->
    pairs_distinct cfg l.
  Proof.
    intros [Hc _] Hl p q Hp Hq H. rewrite !Hpair in H.
    destruct (Hl _ Hp) as (Hp1 & Hp2 & Hp3), (Hl _ Hq) as (Hq1 & Hq2 & Hq3).
    apply Hc in H; [|assumption..]. apply abi_pair_inj in H as [H1 H2]; [|assumption..].
    destruct p, q. cbn in *. congruence.
  Qed.

  Lemma free_values L (l : list V) :
    collision_free (keccak E) L -> (forall v, v ∈ l -> enc v ∈ L /\ typed v) -> values_distinct cfg l.
  Proof.
    intros [Hc Hz] Hl. split.
    - intros v w Hv Hw H. rewrite !Hhash in H.
      destruct (Hl _ Hv) as [Hv1 Hv2], (Hl _ Hw) as [Hw1 Hw2].
      apply Hc in H; [|assumption..]. now apply Henc.
    - intros v Hv. rewrite Hhash. apply Hz. now apply Hl.
  Qed.

  Lemma bound_proof L m p :
    collision_free (keccak E) L ->
    (forall x, x ∈ strings p -> x ∈ L) -> (forall x, x ∈ strings (true_proof cfg m (mp_key p)) -> x ∈ L) ->
    in_tree cfg (tc_index cfg (mp_key p)) -> Forall is_word (mp_path p) ->
    (forall v, mp_value p = Some v -> typed v) ->
    (forall v, m !! tc_index cfg (mp_key p) = Some v -> typed v) ->
    verify_proof cfg (tree_root cfg m) p = Ok tt ->
    p = true_proof cfg m (mp_key p).
  Proof.
    intros Hc H1 H2 Hi Hp Hv Hm Hver. apply proof_binding_value; [exact Hi|exact Hver| |].
    - apply (free_pairs L); [exact Hc|]. intros lr Hlr. apply elem_of_app in Hlr as [Hlr|Hlr].
      + split; [|now apply (proof_pairs_words p)]. apply H1. unfold strings. apply elem_of_app. right.
        apply elem_of_list_fmap. now exists lr.
      + split; [|apply (proof_pairs_words (true_proof cfg m (mp_key p))); [apply siblings_words|exact Hlr]].
        apply H2. unfold strings. apply elem_of_app. right. apply elem_of_list_fmap. now exists lr.
    - apply (free_values L); [exact Hc|]. intros v Hin. apply elem_of_app in Hin as [Hin|Hin].
      + split; [apply H1; unfold strings; apply elem_of_app; left; apply elem_of_list_fmap; now exists v|].
        unfold proof_values in Hin. destruct (mp_value p) as [w|] eqn:Hw; [|now apply elem_of_nil in Hin].
        apply elem_of_list_singleton in Hin as ->. now apply Hv.
      + split; [apply H2; unfold strings; apply elem_of_app; left; apply elem_of_list_fmap; now exists v|].
        unfold proof_values, true_proof in Hin. cbn [mp_value] in Hin.
        destruct (m !! tc_index cfg (mp_key p)) as [w|] eqn:Hw; [|now apply elem_of_nil in Hin].
        apply elem_of_list_singleton in Hin as ->. now apply Hm.
  Qed.

  Lemma true_proof_true m k : in_tree cfg (tc_index cfg k) -> proof_true cfg m (true_proof cfg m k).
  Proof. intros Hi. split; [exact Hi|]. split; reflexivity. Qed.
End bind.

(** ** The program on true proofs *)

Lemma account_root_spec E s : state_ok E s ->
  merkle_root (account_tree E) (vs_accounts s) = tree_root (account_tree E) (accounts s).
Proof. intros [[Hz _] _]. exact (merkle_root_spec (account_tree E) _ Hz). Qed.
Lemma request_root_spec E s : state_ok E s ->
  merkle_root (request_tree E) (vs_transactions s) = tree_root (request_tree E) (flags s).
Proof. intros [_ [Hz _]]. exact (merkle_root_spec (request_tree E) _ Hz). Qed.

(** An input whose roots and counters are those of the full state and whose proofs are true. *)
Record true_input (E : env) (s : full_state) (i : stf_input) : Prop := {
  ti_root : si_root i = full_root E s;
  ti_accounts_root : si_accounts_root i = merkle_root (account_tree E) (vs_accounts s);
  ti_requests_root : si_requests_root i = merkle_root (request_tree E) (vs_transactions s);
  ti_domain : vs_domain (si_state i) = vs_domain s;
  ti_tx_id : vs_tx_id (si_state i) = vs_tx_id s;
  ti_onchain : vs_onchain_tx_id (si_state i) = vs_onchain_tx_id s;
  ti_block : vs_onchain_block (si_state i) = vs_onchain_block s;
  ti_log : vs_onchain_log_index (si_state i) = vs_onchain_log_index s;
  ti_account_proofs : Forall (fun p => in_tree (account_tree E) (mp_key p) /\
    p = true_proof (account_tree E) (accounts s) (mp_key p)) (si_account_proofs i);
  ti_request_proofs : Forall (fun p =>
    p = true_proof (request_tree E) (flags s) (mp_key p)) (si_request_proofs i);
  ti_account_nodup : NoDup (map mp_key (si_account_proofs i));
  ti_request_nodup : NoDup (map (fun p => request_index (mp_key p)) (si_request_proofs i))
}.

Definition start_state (E : env) (i : stf_input) : sparse_state :=
  with_transactions (recovered (request_tree E) (si_request_proofs i))
    (with_accounts (recovered (account_tree E) (si_account_proofs i)) (si_state i)).

Lemma true_accounts E s i : true_input E s i ->
  Forall (proof_true (account_tree E) (accounts s)) (si_account_proofs i).
Proof.
  intros H. eapply Forall_impl; [exact (ti_account_proofs _ _ _ H)|].
  intros p [Hi Hp]. rewrite Hp. now apply true_proof_true.
Qed.

Lemma true_requests E s i : true_input E s i ->
  Forall (proof_true (request_tree E) (flags s)) (si_request_proofs i).
Proof.
  intros H. eapply Forall_impl; [exact (ti_request_proofs _ _ _ H)|].
  intros p Hp. cbv beta in Hp. rewrite Hp. apply true_proof_true. exact (request_index_lt _).
Qed.

Lemma recover_accounts E s i old : true_input E s i -> state_ok E s ->
  recover (account_tree E) (si_accounts_root i) (si_account_proofs i) old =
  Ok (recovered (account_tree E) (si_account_proofs i)).
Proof.
  intros H Hs. apply recover_spec. split; [|split; [exact (ti_account_nodup _ _ _ H)|reflexivity]].
  rewrite (ti_accounts_root _ _ _ H), account_root_spec by exact Hs.
  eapply Forall_impl; [exact (true_accounts _ _ _ H)|]. intros p. apply proof_true_verify.
Qed.

Lemma recover_requests E s i old : true_input E s i -> state_ok E s ->
  recover (request_tree E) (si_requests_root i) (si_request_proofs i) old =
  Ok (recovered (request_tree E) (si_request_proofs i)).
Proof.
  intros H Hs. apply recover_spec. split; [|split; [exact (ti_request_nodup _ _ _ H)|reflexivity]].
  rewrite (ti_requests_root _ _ _ H), request_root_spec by exact Hs.
  eapply Forall_impl; [exact (true_requests _ _ _ H)|]. intros p. apply proof_true_verify.
Qed.

Lemma start_agrees E s i : true_input E s i -> agree_map (start_state E i) (contents s).
Proof.
  intros H. destruct H. constructor; cbn [start_state with_transactions with_accounts vs_domain vs_tx_id
    vs_onchain_tx_id vs_onchain_block vs_onchain_log_index vs_accounts vs_transactions contents]; auto.
  - unfold known_accounts. cbn [start_state with_transactions with_accounts vs_accounts].
    apply recovered_true.
    + exact ti_account_nodup0.
    + eapply Forall_impl; [exact ti_account_proofs0|].
      intros p [Hi Hp]. rewrite Hp. now apply true_proof_true.
    + intros p Hp. rewrite Forall_forall in ti_account_proofs0.
      destruct (ti_account_proofs0 p Hp) as [_ Heq]. rewrite Heq at 1. reflexivity.
  - unfold known_requests. cbn [start_state with_transactions with_accounts vs_transactions].
    apply recovered_true.
    + exact ti_request_nodup0.
    + eapply Forall_impl; [exact ti_request_proofs0|].
      intros p Hp. cbv beta in Hp. rewrite Hp. apply true_proof_true. exact (request_index_lt _).
    + intros p Hp. rewrite Forall_forall in ti_request_proofs0.
      pose proof (ti_request_proofs0 p Hp) as Heq. rewrite Heq at 1. reflexivity.
Qed.

(** The public values of a batch run on a full ledger. *)
Definition batch_pv (E : env) (s s' : full_state) (timestamp : N) (rs : list exec_result) : step_pv :=
  StepPv (full_root E s) (full_root E s') timestamp (map sol_of_receipt (batch_receipts rs)).

Lemma stf_commits E s i sp' rs :
  true_input E s i -> state_ok E s ->
  sparse_batch E (start_state E i) (si_txs i) = (sp', rs) -> calm rs ->
  exists s', run_batch E s (si_txs i) = (s', rs) /\
    stf_main E i = Some (batch_pv E s s' (si_timestamp i) rs).
Proof.
  intros H Hs Hb Hc.
  destruct (sparse_batch_full E (si_txs i) (start_state E i) s sp' rs) as (s' & Hf & Ha & Hfr);
    [now apply start_agrees|exact Hb|now apply calm_key|].
  exists s'. split; [exact Hf|].
  pose proof (run_batch_ok _ _ _ _ _ Hs Hf) as Hs'.
  unfold stf_main. cbv zeta.
  assert (Hroot : container_hash E (si_state i) (si_accounts_root i) (si_requests_root i) =? si_root i = true).
  { apply N.eqb_eq. rewrite (ti_root _ _ _ H). unfold full_root, container_hash.
    destruct H. congruence. }
  rewrite Hroot. cbn [negb].
  rewrite (recover_accounts E s i _ H Hs), (recover_requests E s i _ H Hs).
  fold (start_state E i).
  assert (Hl : stf_loop E (si_txs i) (start_state E i) [] = Some (sp', batch_receipts rs)).
  { apply stf_loop_some. exists rs. now split. }
  rewrite Hl.
  destruct (recovered_spec (account_tree E) (si_account_proofs i) (ti_account_nodup _ _ _ H)) as [HwA HiA].
  destruct (recovered_spec (request_tree E) (si_request_proofs i) (ti_request_nodup _ _ _ H)) as [HwR HiR].
  pose proof (start_agrees _ _ _ H) as Ha0.
  rewrite (ti_accounts_root _ _ _ H), (account_root_spec E s Hs).
  rewrite (new_root_sparse (account_tree E) (accounts s) (accounts s') (si_account_proofs i) (vs_accounts sp')).
  2: exact (ti_account_nodup _ _ _ H).
  2: exact (true_accounts _ _ _ H).
  2:{ intros k. pose proof (fr_known_accounts _ _ _ _ Hfr) as Hk. unfold known_accounts in Hk.
      rewrite Hk. apply HwA. }
  2:{ intros k Hk. exact (am_accounts _ _ Ha k Hk). }
  2:{ intros k Hk. apply (fr_accounts _ _ _ _ Hfr). now rewrite <- (fr_known_accounts _ _ _ _ Hfr). }
  2:{ intros k Hk Hm. apply (fr_grow_accounts _ _ _ _ Hfr).
      rewrite (am_accounts _ _ Ha0); [exact Hm|]. now rewrite <- (fr_known_accounts _ _ _ _ Hfr). }
  rewrite (ti_requests_root _ _ _ H), (request_root_spec E s Hs).
  rewrite (new_root_sparse (request_tree E) (flags s) (flags s') (si_request_proofs i) (vs_transactions sp')).
  2: exact (ti_request_nodup _ _ _ H).
  2: exact (true_requests _ _ _ H).
  2:{ intros k. pose proof (fr_known_requests _ _ _ _ Hfr) as Hk. unfold known_requests in Hk.
      rewrite Hk. apply HwR. }
  2:{ intros k Hk. exact (am_requests _ _ Ha k Hk). }
  2:{ intros k Hk. apply (fr_requests _ _ _ _ Hfr). now rewrite <- (fr_known_requests _ _ _ _ Hfr). }
  2:{ intros k Hk Hm. apply (fr_grow_requests _ _ _ _ Hfr).
      rewrite (am_requests _ _ Ha0); [exact Hm|]. now rewrite <- (fr_known_requests _ _ _ _ Hfr). }
  unfold batch_pv. rewrite (ti_root _ _ _ H). do 2 f_equal.
  unfold full_root. rewrite (account_root_spec E s' Hs'), (request_root_spec E s' Hs').
  unfold container_hash.
  rewrite (am_domain _ _ Ha), (am_tx_id _ _ Ha), (am_onchain _ _ Ha), (am_block _ _ Ha), (am_log _ _ Ha).
  reflexivity.
Qed.

Lemma stf_true_sound E s i pv :
  true_input E s i -> state_ok E s -> stf_main E i = Some pv ->
  exists s' rs, run_batch E s (si_txs i) = (s', rs) /\ calm rs /\ pv = batch_pv E s s' (si_timestamp i) rs.
Proof.
  intros H Hs Hm.
  assert (Hl : exists sp' rcs, stf_loop E (si_txs i) (start_state E i) [] = Some (sp', rcs)).
  { unfold stf_main in Hm. cbv zeta in Hm. destruct (negb _) in Hm; [discriminate|].
    rewrite (recover_accounts E s i _ H Hs), (recover_requests E s i _ H Hs) in Hm.
    fold (start_state E i) in Hm.
    destruct (stf_loop E (si_txs i) (start_state E i) []) as [[sp' rcs]|]; [eauto|discriminate]. }
  destruct Hl as (sp' & rcs & Hl). apply stf_loop_some in Hl as (rs & Hb & Hc & _).
  destruct (stf_commits E s i sp' rs H Hs Hb Hc) as (s' & Hf & Hm').
  exists s', rs. split; [exact Hf|]. split; [exact Hc|]. congruence.
Qed.

Lemma stf_true_complete E s i s' rs :
  true_input E s i -> state_ok E s -> run_batch E s (si_txs i) = (s', rs) -> calm rs ->
  (forall k, k ∈ touched_accounts s' -> k ∈ map mp_key (si_account_proofs i)) ->
  (forall k, k ∈ touched_requests s' -> k ∈ map mp_key (si_request_proofs i)) ->
  stf_main E i = Some (batch_pv E s s' (si_timestamp i) rs).
Proof.
  intros H Hs Hb Hc HA HR.
  destruct (recovered_spec (account_tree E) (si_account_proofs i) (ti_account_nodup _ _ _ H)) as [HwA _].
  destruct (recovered_spec (request_tree E) (si_request_proofs i) (ti_request_nodup _ _ _ H)) as [HwR _].
  destruct (full_batch_sparse E (si_txs i) (start_state E i) s s' rs) as (sp' & Hsp & _).
  - now apply start_agrees.
  - exact Hb.
  - intros k Hk. unfold known_accounts, start_state. cbn [with_transactions with_accounts vs_accounts].
    apply HwA. now apply HA.
  - intros k Hk. unfold known_requests, start_state. cbn [with_transactions with_accounts vs_transactions].
    apply HwR. apply HR in Hk. apply elem_of_list_fmap in Hk as (p & -> & Hp).
    apply elem_of_list_fmap. now exists p.
  - destruct (stf_commits E s i sp' rs H Hs Hsp Hc) as (s1 & Hf & Hm). rewrite Hm. congruence.
Qed.

(** ** The roots bind *)

Lemma abi_container_inj d1 t1 o1 b1 l1 a1 r1 d2 t2 o2 b2 l2 a2 r2 :
  Forall is_word [d1; t1; o1; b1; l1; a1; r1] -> Forall is_word [d2; t2; o2; b2; l2; a2; r2] ->
  abi_container d1 t1 o1 b1 l1 a1 r1 = abi_container d2 t2 o2 b2 l2 a2 r2 ->
  d1 = d2 /\ t1 = t2 /\ o1 = o2 /\ b1 = b2 /\ l1 = l2 /\ a1 = a2 /\ r1 = r2.
Proof.
  intros H1 H2 H. unfold abi_container in H. rewrite !Forall_cons in H1, H2.
  destruct H1 as (?&?&?&?&?&?&?&_), H2 as (?&?&?&?&?&?&?&_).
  apply word_app_inj in H as [-> H]; [|assumption..].
  apply word_app_inj in H as [-> H]; [|assumption..].
  apply word_app_inj in H as [-> H]; [|assumption..].
  apply word_app_inj in H as [-> H]; [|assumption..].
  apply word_app_inj in H as [-> H]; [|assumption..].
  apply word_app_inj in H as [-> H]; [|assumption..].
  apply word_inj in H; [|assumption..]. auto 10.
Qed.

Lemma counters_words {A R} (s : vstate A R) a r : typed_counters s -> is_word a -> is_word r ->
  Forall is_word [vs_domain s; vs_tx_id s; vs_onchain_tx_id s; vs_onchain_block s;
                  vs_onchain_log_index s; a; r].
Proof.
  intros (H1 & H2 & H3 & H4 & H5) Ha Hr. rewrite !Forall_cons.
  split; [exact H1|]. do 4 (split; [now apply is_u64_word|]). split; [exact Ha|]. split; [exact Hr|].
  constructor.
Qed.

Section state_binding.
  Context (E : env) (HE : env_ok E).

  Lemma account_root_word s : state_ok E s -> is_word (merkle_root (account_tree E) (vs_accounts s)).
  Proof.
    intros Hs. rewrite account_root_spec by exact Hs.
    exact (tree_hash_word (account_tree E) E abi_account (fun _ => eq_refl) (fun _ _ => eq_refl) HE _ _ _).
  Qed.
  Lemma request_root_word s : state_ok E s -> is_word (merkle_root (request_tree E) (vs_transactions s)).
  Proof.
    intros Hs. rewrite request_root_spec by exact Hs.
    exact (tree_hash_word (request_tree E) E abi_bool (fun _ => eq_refl) (fun _ _ => eq_refl) HE _ _ _).
  Qed.

  Lemma own_account_strings_spec s k : state_ok E s -> in_tree (account_tree E) k ->
    own_account_strings E s k = account_strings E (true_proof (account_tree E) (accounts s) k).
  Proof.
    intros Hs Hk. unfold own_account_strings.
    destruct (merkle_proof_spec (account_tree E) (vs_accounts s) k (so_accounts _ _ Hs)) as [-> _];
      [cbn; lia|exact Hk|reflexivity].
  Qed.
  Lemma own_request_strings_spec s k : state_ok E s ->
    own_request_strings E s k = request_strings E (true_proof (request_tree E) (flags s) k).
  Proof.
    intros Hs. unfold own_request_strings.
    destruct (merkle_proof_spec (request_tree E) (vs_transactions s) k (so_requests _ _ Hs)) as [-> _];
      [cbn; lia|exact (request_index_lt k)|reflexivity].
  Qed.

  Lemma bound_account L s p :
    state_ok E s -> typed_full s -> collision_free (keccak E) L ->
    (forall x, x ∈ account_strings E p -> x ∈ L) ->
    (forall x, x ∈ own_account_strings E s (mp_key p) -> x ∈ L) ->
    is_address (mp_key p) -> Forall is_word (mp_path p) ->
    (forall a, mp_value p = Some a -> typed_account a) ->
    verify_proof (account_tree E) (merkle_root (account_tree E) (vs_accounts s)) p = Ok tt ->
    p = true_proof (account_tree E) (accounts s) (mp_key p).
  Proof.
    intros Hs [_ Hty] Hc H1 H2 Hk Hw Hv Hver. rewrite account_root_spec in Hver by exact Hs.
    rewrite own_account_strings_spec in H2 by assumption.
    apply (bound_proof (account_tree E) E abi_account typed_account (fun _ => eq_refl) (fun _ _ => eq_refl)
             abi_account_inj HE L); try assumption.
    intros a Ha. now apply (Hty (mp_key p)).
  Qed.

  Lemma bound_request L s p :
    state_ok E s -> collision_free (keccak E) L ->
    (forall x, x ∈ request_strings E p -> x ∈ L) ->
    (forall x, x ∈ own_request_strings E s (mp_key p) -> x ∈ L) ->
    Forall is_word (mp_path p) ->
    verify_proof (request_tree E) (merkle_root (request_tree E) (vs_transactions s)) p = Ok tt ->
    p = true_proof (request_tree E) (flags s) (mp_key p).
  Proof.
    intros Hs Hc H1 H2 Hw Hver. rewrite request_root_spec in Hver by exact Hs.
    rewrite own_request_strings_spec in H2 by exact Hs.
    apply (bound_proof (request_tree E) E abi_bool (fun _ => True) (fun _ => eq_refl) (fun _ _ => eq_refl)
             (fun v w _ _ => abi_bool_inj v w) HE L); try assumption; try (intros; exact I).
    exact (request_index_lt _).
  Qed.

  Lemma committed_true s i pv :
    state_ok E s -> typed_full s -> typed_input i -> si_root i = full_root E s ->
    collision_free (keccak E) (stf_strings E i s) -> stf_main E i = Some pv -> true_input E s i.
  Proof.
    intros Hs Hts Hti Hroot Hc Hm. unfold stf_main in Hm. cbv zeta in Hm.
    destruct (container_hash E (si_state i) (si_accounts_root i) (si_requests_root i) =? si_root i) eqn:Hr;
      [|discriminate]. cbn [negb] in Hm. apply N.eqb_eq in Hr.
    destruct (recover (account_tree E) (si_accounts_root i) (si_account_proofs i) (vs_accounts (si_state i)))
      as [accts|] eqn:HrecA; [|discriminate].
    destruct (recover (request_tree E) (si_requests_root i) (si_request_proofs i)
      (vs_transactions (with_accounts accts (si_state i)))) as [txns|] eqn:HrecR; [|discriminate].
    clear Hm. apply recover_spec in HrecA as (HvA & HnA & _). apply recover_spec in HrecR as (HvR & HnR & _).
    destruct Hti as (T1 & T2 & T3 & T4 & T5). pose proof Hts as [T6 _].
    (* the container *)
    assert (Hcont : container_string (si_state i) (si_accounts_root i) (si_requests_root i) = full_string E s).
    { apply (proj1 Hc); [left|right; left|]. unfold container_string, full_string.
      unfold container_hash in Hr. rewrite Hr. exact Hroot. }
    unfold full_string, container_string in Hcont.
    apply abi_container_inj in Hcont as (D1 & D2 & D3 & D4 & D5 & D6 & D7);
      [|exact (counters_words (si_state i) _ _ T3 T1 T2)
       |exact (counters_words s _ _ T6 (account_root_word s Hs) (request_root_word s Hs))].
    rewrite D6 in HvA. rewrite D7 in HvR.
    constructor; try assumption.
    - rewrite Forall_forall in HvA |- *. intros p Hp.
      destruct (T4 p Hp) as (K1 & K2 & K3). split; [exact K1|].
      apply (bound_account (stf_strings E i s)); try assumption.
      + intros x Hx. unfold stf_strings. do 2 right. apply elem_of_app. left.
        apply elem_of_list_In, in_flat_map. exists p. split; [now apply elem_of_list_In|].
        apply elem_of_list_In, elem_of_app. now left.
      + intros x Hx. unfold stf_strings. do 2 right. apply elem_of_app. left.
        apply elem_of_list_In, in_flat_map. exists p. split; [now apply elem_of_list_In|].
        apply elem_of_list_In, elem_of_app. now right.
      + now apply HvA.
    - rewrite Forall_forall in HvR |- *. intros p Hp.
      apply (bound_request (stf_strings E i s)); try assumption.
      + intros x Hx. unfold stf_strings. do 2 right. apply elem_of_app. right.
        apply elem_of_list_In, in_flat_map. exists p. split; [now apply elem_of_list_In|].
        apply elem_of_list_In, elem_of_app. now left.
      + intros x Hx. unfold stf_strings. do 2 right. apply elem_of_app. right.
        apply elem_of_list_In, in_flat_map. exists p. split; [now apply elem_of_list_In|].
        apply elem_of_list_In, elem_of_app. now right.
      + now apply T5.
      + now apply HvR.
  Qed.

  (** Equal roots, equal states. *)
  Lemma root_binds s1 s2 aks rks :
    state_ok E s1 -> state_ok E s2 -> typed_full s1 -> typed_full s2 ->
    (forall k, is_Some (accounts s1 !! k) \/ is_Some (accounts s2 !! k) -> k ∈ aks) ->
    (forall j, is_Some (flags s1 !! j) \/ is_Some (flags s2 !! j) ->
       exists k, k ∈ rks /\ request_index k = j) ->
    collision_free (keccak E) (two_state_strings E s1 s2 aks rks) ->
    full_root E s1 = full_root E s2 -> contents s1 = contents s2.
  Proof.
    intros Hs1 Hs2 Ht1 Ht2 HA HR Hc Hroot.
    assert (Hcont : full_string E s1 = full_string E s2).
    { apply (proj1 Hc); [left|right; left|]. exact Hroot. }
    unfold full_string, container_string in Hcont.
    apply abi_container_inj in Hcont as (D1 & D2 & D3 & D4 & D5 & D6 & D7);
      [|exact (counters_words s1 _ _ (proj1 Ht1) (account_root_word s1 Hs1) (request_root_word s1 Hs1))
       |exact (counters_words s2 _ _ (proj1 Ht2) (account_root_word s2 Hs2) (request_root_word s2 Hs2))].
    unfold contents. rewrite D1, D2, D3, D4, D5. f_equal.
    - change (accounts s1 = accounts s2). apply map_eq. intros k.
      destruct (decide (k ∈ aks)) as [Hk|Hk].
      2:{ destruct (accounts s1 !! k) as [a|] eqn:H1; [destruct Hk; apply HA; left; eauto|].
          destruct (accounts s2 !! k) as [a|] eqn:H2; [destruct Hk; apply HA; right; eauto|]. reflexivity. }
      assert (Hty : is_address k \/ accounts s1 !! k = accounts s2 !! k).
      { destruct (accounts s1 !! k) as [a|] eqn:H1; [left; now apply (proj2 Ht1 k a)|].
        destruct (accounts s2 !! k) as [a|] eqn:H2; [left; now apply (proj2 Ht2 k a)|]. now right. }
      destruct Hty as [Hty|Hty]; [|exact Hty].
      pose (p := true_proof (account_tree E) (accounts s1) k).
      assert (Hp : p = true_proof (account_tree E) (accounts s2) (mp_key p)).
      { apply (bound_account (two_state_strings E s1 s2 aks rks)); try assumption.
        - intros x Hx. unfold two_state_strings. do 2 right. apply elem_of_app. left.
          apply elem_of_list_In, in_flat_map. exists k. split; [now apply elem_of_list_In|].
          apply elem_of_list_In, elem_of_app. left. now rewrite own_account_strings_spec.
        - intros x Hx. unfold two_state_strings. do 2 right. apply elem_of_app. left.
          apply elem_of_list_In, in_flat_map. exists k. split; [now apply elem_of_list_In|].
          apply elem_of_list_In, elem_of_app. right. exact Hx.
        - exact (siblings_words (account_tree E) E abi_account (fun _ => eq_refl) (fun _ _ => eq_refl) HE _ _ _ _).
        - intros a Ha. exact (proj2 (proj2 Ht1 k a Ha)).
        - rewrite <- D6, account_root_spec by exact Hs1. apply verify_true_proof. exact Hty. }
      exact (f_equal mp_value Hp).
    - change (flags s1 = flags s2). apply map_eq. intros j.
      destruct (flags s1 !! j) as [b1|] eqn:H1; destruct (flags s2 !! j) as [b2|] eqn:H2; try reflexivity.
      all: destruct (HR j) as (k & Hk & Hj); [rewrite H1, H2; eauto|].
      all: pose (p := true_proof (request_tree E) (flags s1) k).
      all: assert (Hp : p = true_proof (request_tree E) (flags s2) (mp_key p)) by
       (apply (bound_request (two_state_strings E s1 s2 aks rks)); try assumption;
        [ intros x Hx; unfold two_state_strings; do 2 right; apply elem_of_app; right;
          apply elem_of_list_In, in_flat_map; exists k; split; [now apply elem_of_list_In|];
          apply elem_of_list_In, elem_of_app; left; now rewrite own_request_strings_spec
        | intros x Hx; unfold two_state_strings; do 2 right; apply elem_of_app; right;
          apply elem_of_list_In, in_flat_map; exists k; split; [now apply elem_of_list_In|];
          apply elem_of_list_In, elem_of_app; right; exact Hx
        | exact (siblings_words (request_tree E) E abi_bool (fun _ => eq_refl) (fun _ _ => eq_refl) HE _ _ _ _)
        | rewrite <- D7, request_root_spec by exact Hs1; apply verify_true_proof; exact (request_index_lt k)]).
      all: pose proof (f_equal mp_value Hp) as Hv; unfold p in Hv; cbn [mp_value true_proof mp_key] in Hv;
        change (tc_index (request_tree E) k) with (request_index k) in Hv; rewrite Hj in Hv; congruence.
  Qed.
End state_binding.

(** ** Between the vocabularies *)

Lemma agrees_map sp s : agrees sp s <-> agree_map sp (contents s).
Proof.
  split; intros [].
  - unfold cursor in *. apply pair_equal_spec in ag_cursor as [Hc H3].
    apply pair_equal_spec in Hc as [H1 H2]. constructor; assumption.
  - constructor; try assumption. unfold cursor. cbn in *. congruence.
Qed.

Lemma same_ledger_contents s1 s2 : same_ledger s1 s2 <-> contents s1 = contents s2.
Proof.
  unfold same_ledger, contents, cursor, accounts, flags. split.
  - intros (-> & -> & Hc & -> & ->). apply pair_equal_spec in Hc as [Hc ->].
    apply pair_equal_spec in Hc as [-> ->]. reflexivity.
  - intros H.
    pose proof (f_equal vs_domain H) as H1. pose proof (f_equal vs_tx_id H) as H2.
    pose proof (f_equal vs_onchain_tx_id H) as H3. pose proof (f_equal vs_onchain_block H) as H4.
    pose proof (f_equal vs_onchain_log_index H) as H5. pose proof (f_equal vs_accounts H) as H6.
    pose proof (f_equal vs_transactions H) as H7.
    cbn [vs_domain vs_tx_id vs_onchain_tx_id vs_onchain_block vs_onchain_log_index vs_accounts
         vs_transactions] in *. rewrite H3, H4, H5. repeat split; assumption.
Qed.

Lemma run_batch_spec E txs : forall s s' rs,
  run_batch E s txs = (s', rs) -> calm rs -> spec_run E (contents s) txs rs (contents s').
Proof.
  induction txs as [|t txs IH]; intros s s' rs Hb Hc; cbn [run_batch] in Hb.
  - apply pair_equal_spec in Hb as [<- <-]. constructor.
  - destruct (execute_full E t s) as [s1 r] eqn:He. destruct (run_batch E s1 txs) as [s2 rs2] eqn:Hb2.
    apply pair_equal_spec in Hb as [<- <-]. apply Forall_cons in Hc as [Hr Hc].
    econstructor; [eapply execute_full_sound; eassumption|now apply IH].
Qed.

(** Execution depends only on what it touches. *)

Definition touched_view (s s' : full_state) : sparse_state :=
  VState (vs_domain s) (vs_tx_id s) (vs_onchain_tx_id s) (vs_onchain_block s) (vs_onchain_log_index s)
    (Sparse (accounts s) (touched_accounts s'))
    (Sparse (flags s) (set_map request_index (touched_requests s'))).

Lemma execute_touched_only E t s s' r :
  execute_full E t s = (s', r) ->
  (forall k, k ∉ touched_accounts s' -> accounts s' !! k = accounts s !! k) /\
  (forall j, (forall k, k ∈ touched_requests s' -> request_index k <> j) -> flags s' !! j = flags s !! j) /\
  forall q, same_on (touched_accounts s') (touched_requests s') s q ->
    exists q', execute_full E t q = (q', r) /\
      same_on (touched_accounts s') (touched_requests s') s' q'.
Proof.
  intros He.
  assert (Hv : agree_map (touched_view s s') (contents s)) by now constructor.
  destruct (execute_full_sparse E t (touched_view s s') s s' r Hv He) as (sp' & Hsp).
  { intros k Hk. exact Hk. }
  { intros k Hk. unfold known_requests. cbn [touched_view vs_transactions sp_witnessed].
    apply elem_of_map. eauto. }
  pose proof (execute_full_key _ _ _ _ _ He) as Hkey.
  destruct (execute_sparse_map E t _ _ sp' r Hv Hsp Hkey) as (l1 & Hm & Ha1 & Hf1).
  pose proof (execute_contents _ _ _ _ _ He) as Hc. rewrite Hm in Hc.
  apply pair_equal_spec in Hc as [-> _].
  split; [|split].
  - intros k Hk. exact (fr_accounts _ _ _ _ Hf1 k Hk).
  - intros j Hj. apply (fr_requests _ _ _ _ Hf1 j). unfold known_requests.
    cbn [touched_view vs_transactions sp_witnessed]. rewrite elem_of_map. intros (k & -> & Hk).
    now apply (Hj k).
  - intros q (Q1 & Q2 & Q3 & Q4 & Q5). unfold cursor in Q3. apply pair_equal_spec in Q3 as [Q3 Q8].
    apply pair_equal_spec in Q3 as [Q6 Q7].
    assert (Hq : agree_map (touched_view s s') (contents q)).
    { constructor; [exact Q1|exact Q2|exact Q6|exact Q7|exact Q8|exact Q4|].
      - intros j Hj. unfold known_requests in Hj. cbn [touched_view vs_transactions sp_witnessed] in Hj.
        apply elem_of_map in Hj as (k & -> & Hk). exact (Q5 k Hk). }
    destruct (execute_sparse_map E t _ _ sp' r Hq Hsp Hkey) as (l2 & Hm2 & Ha2 & Hf2).
    destruct (execute_map_full _ _ _ _ _ Hm2) as (q' & Hq' & <-).
    exists q'. split; [exact Hq'|].
    destruct Ha1 as [A1 A2 A3 A4 A5 A6 A7], Ha2 as [B1 B2 B3 B4 B5 B6 B7].
    cbn [contents vs_domain vs_tx_id vs_onchain_tx_id vs_onchain_block vs_onchain_log_index] in *.
    split; [congruence|]. split; [congruence|]. split; [unfold cursor; congruence|].
    rewrite (fr_known_accounts _ _ _ _ Hf1) in A6, B6. rewrite (fr_known_requests _ _ _ _ Hf1) in A7, B7.
    split.
    + intros k Hk. specialize (A6 k Hk). specialize (B6 k Hk).
      transitivity (sp_inner (vs_accounts sp') !! k); [symmetry; exact A6|exact B6].
    + intros k Hk.
      assert (Hk' : request_index k ∈ known_requests (touched_view s s')).
      { unfold known_requests. cbn [touched_view vs_transactions sp_witnessed]. apply elem_of_map. eauto. }
      specialize (A7 _ Hk'). specialize (B7 _ Hk').
      transitivity (sp_inner (vs_transactions sp') !! request_index k); [symmetry; exact A7|exact B7].
Qed.

(** ** Proofs given by the full ledger *)

Lemma account_proofs_true E s : state_ok E s -> forall keys proofs,
  Forall2 (fun k p => (merkle_proof (account_tree E) k (vs_accounts s)).1 = Ok p) keys proofs ->
  map mp_key proofs = keys /\
  Forall (fun p => in_tree (account_tree E) (mp_key p) /\
    p = true_proof (account_tree E) (accounts s) (mp_key p)) proofs.
Proof.
  intros Hs keys proofs H. induction H as [|k p keys proofs Hp _ [IH1 IH2]]; [split; [reflexivity|constructor]|].
  destruct (N.lt_ge_cases k (2 ^ 160)) as [Hk|Hk].
  - destruct (merkle_proof_spec (account_tree E) (vs_accounts s) k (so_accounts _ _ Hs)) as [Heq _];
      [cbn [tc_bits account_tree]; lia|exact Hk|].
    rewrite Heq in Hp. injection Hp as <-. split.
    + cbn [map mp_key true_proof]. now rewrite IH1.
    + constructor; [|exact IH2]. split; [exact Hk|reflexivity].
  - rewrite merkle_proof_out in Hp; [discriminate|cbn [tc_bits account_tree]; lia|].
    unfold in_tree. change (2 ^ N.of_nat (tc_bits (account_tree E))) with (2 ^ 160).
    change (tc_index (account_tree E) k) with k. lia.
Qed.

Lemma request_proofs_true E s : state_ok E s -> forall keys proofs,
  Forall2 (fun k p => (merkle_proof (request_tree E) k (vs_transactions s)).1 = Ok p) keys proofs ->
  map mp_key proofs = keys /\
  Forall (fun p => p = true_proof (request_tree E) (flags s) (mp_key p)) proofs.
Proof.
  intros Hs keys proofs H. induction H as [|k p keys proofs Hp _ [IH1 IH2]]; [split; [reflexivity|constructor]|].
  destruct (merkle_proof_spec (request_tree E) (vs_transactions s) k (so_requests _ _ Hs)) as [Heq _];
    [cbn [tc_bits request_tree]; lia|exact (request_index_lt k)|].
  rewrite Heq in Hp. injection Hp as <-. split.
  - cbn [map mp_key true_proof]. now rewrite IH1.
  - constructor; [reflexivity|exact IH2].
Qed.
