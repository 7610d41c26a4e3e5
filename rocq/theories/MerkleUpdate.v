(** Binding of proofs to the contents, and the incremental root computation. *)
From Verif Require Export MerkleFacts.
From Coq Require Import ZifyBool ZifyN ZifyNat.
Open Scope N_scope.

Section merkle_update.
  Context {V : Type} (cfg : tree_cfg V).
  Implicit Types m : gmap N V.

  (** ** Binding *)

  Lemma fold_path_inj p1 : forall p2 i h1 h2,
    length p1 = length p2 ->
    fold_path cfg p1 i h1 = fold_path cfg p2 i h2 ->
    pairs_distinct cfg (path_pairs cfg p1 i h1 ++ path_pairs cfg p2 i h2) ->
    h1 = h2 /\ p1 = p2.
  Proof.
    induction p1 as [|s1 p1 IH]; intros [|s2 p2] i h1 h2 Hlen Hf Hd; try discriminate.
    - now split.
    - rewrite !fold_path_cons in Hf. cbn [path_pairs] in Hd.
      assert (Hp : forall s h, (if N.even i then tc_pair cfg h s else tc_pair cfg s h) =
        tc_pair cfg (if N.even i then (h, s) else (s, h)).1 (if N.even i then (h, s) else (s, h)).2)
        by (intros; now destruct (N.even i)).
      rewrite !Hp in Hf.
      set (q1 := if N.even i then (h1, s1) else (s1, h1)) in *.
      set (q2 := if N.even i then (h2, s2) else (s2, h2)) in *.
      destruct (IH p2 (i / 2) (tc_pair cfg q1.1 q1.2) (tc_pair cfg q2.1 q2.2)) as [Hh ->].
      + now injection Hlen.
      + exact Hf.
      + intros x y Hx Hy. apply Hd; set_solver.
      + assert (Hq : q1 = q2) by (apply Hd; [set_solver|set_solver|exact Hh]).
        unfold q1, q2 in Hq. destruct (N.even i); injection Hq as -> ->; now split.
  Qed.

  Lemma verify_proof_ok root p :
    verify_proof cfg root p = Ok tt <->
    length (mp_path p) = tc_bits cfg /\
    fold_path cfg (mp_path p) (tc_index cfg (mp_key p)) (claimed_hash cfg (mp_value p)) = root.
  Proof.
    unfold verify_proof, verify_proof_with_hash.
    destruct (Nat.eqb_spec (length (mp_path p)) (tc_bits cfg)) as [El|El]; cbn [negb];
      [|split; [discriminate|tauto]].
    destruct (N.eqb_spec (fold_path cfg (mp_path p) (tc_index cfg (mp_key p))
      (claimed_hash cfg (mp_value p))) root) as [E|E]; cbn [negb]; split; try discriminate; tauto.
  Qed.

  Lemma verify_proof_unit root p : verify_proof cfg root p = Ok tt \/ exists e, verify_proof cfg root p = Err e.
  Proof. destruct (verify_proof cfg root p) as [[]|e]; eauto. Qed.

  (** The value a proof claims and the true one hash differently unless they are equal. *)
  Lemma claimed_hash_inj o1 o2 :
    values_distinct cfg (match o1 with Some v => [v] | None => [] end ++
                         match o2 with Some v => [v] | None => [] end) ->
    claimed_hash cfg o1 = claimed_hash cfg o2 -> o1 = o2.
  Proof.
    intros [Hd Hz] H. destruct o1 as [v1|], o2 as [v2|]; cbn in H.
    - f_equal. apply Hd; [set_solver|set_solver|exact H].
    - destruct (Hz v1); [set_solver|exact H].
    - destruct (Hz v2); [set_solver|now symmetry].
    - reflexivity.
  Qed.

  Lemma proof_binding m p :
    in_tree cfg (tc_index cfg (mp_key p)) ->
    verify_proof cfg (tree_root cfg m) p = Ok tt ->
    pairs_distinct cfg (proof_pairs cfg p ++ proof_pairs cfg (true_proof cfg m (mp_key p))) ->
    claimed_hash cfg (mp_value p) = claimed_hash cfg (m !! tc_index cfg (mp_key p)) /\
    mp_path p = mp_path (true_proof cfg m (mp_key p)).
  Proof.
    intros Hi Hv Hd. apply verify_proof_ok in Hv as [Hl Hf].
    apply (fold_path_inj _ _ (tc_index cfg (mp_key p))).
    - rewrite Hl. unfold true_proof. cbn. now rewrite siblings_length.
    - rewrite Hf. rewrite claimed_hash_spec. cbn [true_proof mp_path]. now rewrite fold_path_true.
    - exact Hd.
  Qed.

  Lemma proof_binding_value m p :
    in_tree cfg (tc_index cfg (mp_key p)) ->
    verify_proof cfg (tree_root cfg m) p = Ok tt ->
    pairs_distinct cfg (proof_pairs cfg p ++ proof_pairs cfg (true_proof cfg m (mp_key p))) ->
    values_distinct cfg (proof_values p ++ proof_values (true_proof cfg m (mp_key p))) ->
    p = true_proof cfg m (mp_key p).
  Proof.
    intros Hi Hv Hp Hd. destruct (proof_binding m p Hi Hv Hp) as [Hc Hpath].
    apply claimed_hash_inj in Hc; [|exact Hd].
    destruct p as [k v path]. unfold true_proof in *. cbn in *. now subst.
  Qed.

  (** ** The incremental root *)

  (** Contents [m] is [m0] with the updates at the indices in [P] applied. *)
  Definition applied (m0 updates : gmap N V) (P : list N) m : Prop :=
    forall i, m !! i = if decide (i ∈ P) then
                         match updates !! i with Some v => Some v | None => m0 !! i end
                       else m0 !! i.

  Definition nodes_true m (nodes : gmap (nat * N) N) : Prop :=
    forall h i x, nodes !! (h, i) = Some x -> x = tree_hash cfg m h i.

  Definition nodes_have (P : list N) (nodes : gmap (nat * N) N) : Prop :=
    forall j h, j ∈ P -> (h <= tc_bits cfg)%nat -> is_Some (nodes !! (h, j / 2 ^ N.of_nat h)).

  Lemma replay_path_spec m0 updates P m' j :
    j ∉ P \/ True ->
    applied m0 updates (j :: P) m' ->
    forall n h nodes,
      (h + n = tc_bits cfg)%nat ->
      (forall h' i x, nodes !! (h', i) = Some x ->
         ((h < h')%nat /\ i = j / 2 ^ N.of_nat h') \/ x = tree_hash cfg m' h' i) ->
      nodes_have P nodes ->
      (forall h', (h' <= h)%nat -> is_Some (nodes !! (h', j / 2 ^ N.of_nat h'))) ->
      let r := replay_path cfg (siblings cfg m0 n h (j / 2 ^ N.of_nat h)) h (j / 2 ^ N.of_nat h)
                 (tree_hash cfg m' h (j / 2 ^ N.of_nat h)) nodes in
      (forall h' i x, r !! (h', i) = Some x ->
         ((tc_bits cfg < h')%nat /\ i = j / 2 ^ N.of_nat h') \/ x = tree_hash cfg m' h' i) /\
      nodes_have (j :: P) r.
  Proof.
    intros _ Ha. induction n as [|n IH]; intros h nodes Hh Ht Hp Hj; cbn zeta.
    - cbn [replay_path siblings]. replace (tc_bits cfg) with h by lia. split; [exact Ht|].
      intros j' h' Hj' Hh'. apply elem_of_cons in Hj' as [->|Hj']; [apply Hj; lia|now apply Hp].
    - rewrite siblings_cons. cbn [replay_path]. rewrite lxor_1, shiftr_1, land_1.
      set (i := j / 2 ^ N.of_nat h) in *.
      assert (Hs : default (tree_hash cfg m0 h (sibling i)) (nodes !! (h, sibling i)) =
                   tree_hash cfg m' h (sibling i)).
      { destruct (nodes !! (h, sibling i)) as [x|] eqn:Hx; cbn [default from_option id].
        - destruct (Ht _ _ _ Hx) as [[? ?]|Hx']; [lia|exact Hx'].
        - apply tree_hash_ext. intros q Hq. symmetry. rewrite Ha. rewrite decide_False; [reflexivity|].
          intros Hin. apply elem_of_cons in Hin as [->|Hin].
          + apply (sibling_ne i). unfold i at 2. congruence.
          + destruct (Hp q h Hin) as [y Hy]; [lia|]. rewrite Hq in Hy. congruence. }
      rewrite Hs. rewrite tree_hash_parent.
      assert (Hi' : i / 2 = j / 2 ^ N.of_nat (S h)) by (unfold i; now rewrite div_pow2_S).
      rewrite Hi'. apply IH; [lia| | |].
      + intros h' i' x Hx.
        destruct (decide ((S h, j / 2 ^ N.of_nat (S h)) = (h', i'))) as [Heq|Hne].
        { apply pair_equal_spec in Heq as [<- <-]. rewrite lookup_insert in Hx. right. congruence. }
        rewrite lookup_insert_ne in Hx by exact Hne.
        assert (Hx' : (h', i') = (h, sibling i) /\ x = tree_hash cfg m' h (sibling i) \/
                      nodes !! (h', i') = Some x).
        { destruct (nodes !! (h, sibling i)) eqn:E; [now right|].
          destruct (decide ((h, sibling i) = (h', i'))) as [Heq|Hne'].
          - rewrite Heq, lookup_insert in Hx. left. split; [now symmetry|congruence].
          - rewrite lookup_insert_ne in Hx by exact Hne'. now right. }
        destruct Hx' as [[Heq ->]|Hx'].
        * apply pair_equal_spec in Heq as [-> ->]. now right.
        * destruct (Ht _ _ _ Hx') as [[Hlt ->]|Hx'']; [|now right].
          left. split; [|reflexivity].
          assert (h' <> S h) by (intros ->; now apply Hne). lia.
      + intros q h' Hq Hh'. specialize (Hp q h' Hq Hh').
        destruct (decide ((S h, j / 2 ^ N.of_nat (S h)) = (h', q / 2 ^ N.of_nat h'))) as [Heq|Hne].
        { rewrite Heq, lookup_insert. eauto. }
        rewrite lookup_insert_ne by exact Hne.
        destruct (nodes !! (h, sibling i)); [exact Hp|].
        destruct (decide ((h, sibling i) = (h', q / 2 ^ N.of_nat h'))) as [Heq|Hne'].
        { rewrite Heq, lookup_insert. eauto. }
        now rewrite lookup_insert_ne.
      + intros h' Hh'.
        destruct (decide (h' = S h)) as [->|Hne]; [rewrite lookup_insert; eauto|].
        rewrite lookup_insert_ne by congruence.
        specialize (Hj h' ltac:(lia)).
        destruct (nodes !! (h, sibling i)); [exact Hj|].
        destruct (decide ((h, sibling i) = (h', j / 2 ^ N.of_nat h'))) as [Heq|Hne'].
        { rewrite Heq, lookup_insert. eauto. }
        now rewrite lookup_insert_ne.
  Qed.

  Lemma applied_cons m0 updates P m j :
    applied m0 updates P m ->
    exists m', applied m0 updates (j :: P) m' /\
      (forall q, q <> j -> m' !! q = m !! q).
  Proof.
    intros Ha.
    exists (match updates !! j with Some v => <[j := v]> m | None => m end). split.
    - intros i. destruct (decide (i = j)) as [->|Hne].
      + rewrite decide_True by left. destruct (updates !! j) as [v|] eqn:Hu.
        * now rewrite lookup_insert.
        * rewrite Ha, Hu. now destruct (decide _).
      + assert (Hm : (match updates !! j with Some v => <[j := v]> m | None => m end) !! i = m !! i).
        { destruct (updates !! j); [|reflexivity]. rewrite lookup_insert_ne; congruence. }
        rewrite Hm, Ha. destruct (decide (i ∈ P)) as [Hi|Hi].
        * rewrite decide_True by now right. reflexivity.
        * rewrite decide_False; [reflexivity|]. intros H. apply elem_of_cons in H as [|]; tauto.
    - intros q Hq. destruct (updates !! j); [|reflexivity]. rewrite lookup_insert_ne; congruence.
  Qed.

  (** What is needed of a proof: its siblings are true and the leaf hash it claims is the true one. *)
  Definition proof_true m (p : mproof V) : Prop :=
    in_tree cfg (tc_index cfg (mp_key p)) /\
    mp_path p = mp_path (true_proof cfg m (mp_key p)) /\
    claimed_hash cfg (mp_value p) = claimed_hash cfg (m !! tc_index cfg (mp_key p)).

  Lemma replay_proof_spec m0 updates P m nodes p :
    proof_true m0 p ->
    applied m0 updates P m ->
    (forall h i x, nodes !! (h, i) = Some x -> (h <= tc_bits cfg)%nat -> x = tree_hash cfg m h i) ->
    (forall h i x, nodes !! (h, i) = Some x -> (h <= tc_bits cfg)%nat) ->
    nodes_have P nodes ->
    exists m',
      applied m0 updates (tc_index cfg (mp_key p) :: P) m' /\
      (forall h i x, replay_proof cfg updates nodes p !! (h, i) = Some x ->
         (h <= tc_bits cfg)%nat -> x = tree_hash cfg m' h i) /\
      nodes_have (tc_index cfg (mp_key p) :: P) (replay_proof cfg updates nodes p).
  Proof.
    intros (Hi & Hpath & Hval) Ha Ht Hlv Hp. set (j := tc_index cfg (mp_key p)) in *.
    destruct (applied_cons m0 updates P m j Ha) as (m' & Ha' & Hag).
    exists m'. split; [exact Ha'|].
    unfold replay_proof. fold j. rewrite Hpath. cbn [true_proof mp_path]. fold j.
    assert (Hh : match updates !! j with Some v => tc_hash cfg v | None => claimed_hash cfg (mp_value p) end
                 = tree_hash cfg m' 0 j).
    { cbn [tree_hash]. rewrite Ha', decide_True by left.
      destruct (updates !! j); [reflexivity|]. now rewrite Hval. }
    rewrite Hh.
    pose proof (replay_path_spec m0 updates P m' j (or_intror I) Ha' (tc_bits cfg) 0%nat
      (<[(0%nat, j) := tree_hash cfg m' 0 j]> nodes)) as H.
    cbn zeta in H. change (N.of_nat 0) with 0 in H. rewrite N.pow_0_r, !N.div_1_r in H.
    destruct H as [H1 H2].
    - lia.
    - intros h' i x Hx. destruct (decide ((0%nat, j) = (h', i))) as [Heq|Hne].
      + rewrite Heq, lookup_insert in Hx. apply pair_equal_spec in Heq as [<- <-]. right. congruence.
      + rewrite lookup_insert_ne in Hx by exact Hne.
        pose proof (Ht _ _ _ Hx (Hlv _ _ _ Hx)) as ->.
        destruct (decide (i = j / 2 ^ N.of_nat h')) as [->|Hneq].
        * destruct h' as [|h']; [exfalso; apply Hne; cbn; now rewrite N.div_1_r|]. left. split; [lia|reflexivity].
        * right. apply tree_hash_ext. intros q Hq. symmetry. apply Hag. congruence.
    - intros q h' Hq Hh'. destruct (decide ((0%nat, j) = (h', q / 2 ^ N.of_nat h'))) as [Heq|Hne].
      + rewrite Heq, lookup_insert. eauto.
      + rewrite lookup_insert_ne by exact Hne. now apply Hp.
    - intros h' Hh'. replace h' with 0%nat by lia. cbn. rewrite N.div_1_r, lookup_insert. eauto.
    - split; [|exact H2]. intros h i x Hx Hle. destruct (H1 _ _ _ Hx) as [[? ?]|Hx']; [lia|exact Hx'].
  Qed.

  Lemma replay_path_levels path : forall h i x nodes b,
    (forall h' i' y, nodes !! (h', i') = Some y -> (h' <= b)%nat) ->
    (h + length path <= b)%nat ->
    forall h' i' y, replay_path cfg path h i x nodes !! (h', i') = Some y -> (h' <= b)%nat.
  Proof.
    induction path as [|s path IH]; intros h i x nodes b Hn Hb; cbn [replay_path]; [exact Hn|].
    cbn [length] in Hb. apply IH; [|lia]. intros h' i' y Hy.
    destruct (decide ((S h, N.shiftr i 1) = (h', i'))) as [Heq|Hne]; [injection Heq; lia|].
    rewrite lookup_insert_ne in Hy by exact Hne.
    destruct (nodes !! (h, N.lxor i 1)); [now apply Hn in Hy|].
    destruct (decide ((h, N.lxor i 1) = (h', i'))) as [Heq|Hne']; [injection Heq; lia|].
    rewrite lookup_insert_ne in Hy by exact Hne'. now apply Hn in Hy.
  Qed.

  Lemma replay_proof_levels updates nodes p :
    (length (mp_path p) = tc_bits cfg)%nat ->
    (forall h i x, nodes !! (h, i) = Some x -> (h <= tc_bits cfg)%nat) ->
    forall h i x, replay_proof cfg updates nodes p !! (h, i) = Some x -> (h <= tc_bits cfg)%nat.
  Proof.
    intros Hl Hn. unfold replay_proof. apply replay_path_levels; [|lia].
    intros h i x Hx. destruct (decide ((0%nat, tc_index cfg (mp_key p)) = (h, i))) as [Heq|Hne].
    - apply pair_equal_spec in Heq as [<- <-]. lia.
    - rewrite lookup_insert_ne in Hx by exact Hne. now apply Hn in Hx.
  Qed.

  Lemma replay_all_spec m0 updates proofs : forall P m nodes,
    Forall (proof_true m0) proofs ->
    applied m0 updates P m ->
    (forall h i x, nodes !! (h, i) = Some x -> (h <= tc_bits cfg)%nat -> x = tree_hash cfg m h i) ->
    (forall h i x, nodes !! (h, i) = Some x -> (h <= tc_bits cfg)%nat) ->
    nodes_have P nodes ->
    exists m' P',
      applied m0 updates P' m' /\
      (forall j, j ∈ P' <-> j ∈ P \/ exists p, p ∈ proofs /\ tc_index cfg (mp_key p) = j) /\
      (forall h i x, fold_left (replay_proof cfg updates) proofs nodes !! (h, i) = Some x ->
         (h <= tc_bits cfg)%nat -> x = tree_hash cfg m' h i) /\
      nodes_have P' (fold_left (replay_proof cfg updates) proofs nodes).
  Proof.
    induction proofs as [|p proofs IH]; intros P m nodes Hf Ha Ht Hlv Hp.
    - exists m, P. split; [exact Ha|]. split; [|now split].
      intros j. split; [now left|]. intros [H|(p & H & _)]; [exact H|]. now apply elem_of_nil in H.
    - cbn [fold_left]. apply Forall_cons in Hf as [Hh Hf].
      destruct (replay_proof_spec m0 updates P m nodes p Hh Ha Ht Hlv Hp) as (m1 & Ha1 & Ht1 & Hp1).
      destruct (IH (tc_index cfg (mp_key p) :: P) m1 (replay_proof cfg updates nodes p) Hf Ha1 Ht1)
        as (m' & P' & Ha' & HP' & Ht' & Hp').
      + apply replay_proof_levels; [|exact Hlv]. destruct Hh as (_ & -> & _).
        cbn. apply siblings_length.
      + exact Hp1.
      + exists m', P'. split; [exact Ha'|]. split; [|now split].
        intros j. rewrite HP', elem_of_cons. split.
        * intros [[->|H]|(q & Hq & <-)]; [right; exists p; split; [left|reflexivity]|now left|].
          right. exists q. split; [now right|reflexivity].
        * intros [H|(q & Hq & <-)]; [tauto|]. apply elem_of_cons in Hq as [->|Hq]; [tauto|].
          right. eauto.
  Qed.

  (** Writing the new values into a map. *)
  Definition write_all (new_values : list (N * V)) m : gmap N V :=
    fold_left (fun m kv => <[tc_index cfg kv.1 := kv.2]> m) new_values m.

  Lemma write_all_lookup nv : forall m i,
    write_all nv m !! i =
    match write_all nv ∅ !! i with Some v => Some v | None => m !! i end.
  Proof.
    unfold write_all. induction nv as [|[k v] nv IH] using rev_ind; intros m i.
    - cbn. now rewrite lookup_empty.
    - rewrite !fold_left_app. cbn [fold_left fst snd].
      destruct (decide (tc_index cfg k = i)) as [->|Hne].
      + now rewrite !lookup_insert.
      + rewrite !lookup_insert_ne by exact Hne. apply IH.
  Qed.

  Lemma write_all_key nv i v :
    write_all nv ∅ !! i = Some v -> exists kv, kv ∈ nv /\ tc_index cfg kv.1 = i.
  Proof.
    unfold write_all. induction nv as [|[k w] nv IH] using rev_ind.
    - cbn. rewrite lookup_empty. discriminate.
    - rewrite fold_left_app. cbn [fold_left fst snd].
      destruct (decide (tc_index cfg k = i)) as [<-|Hne].
      + intros _. exists (k, w). set_solver.
      + rewrite lookup_insert_ne by exact Hne. intros H. apply IH in H as (kv & Hin & Hk).
        exists kv. set_solver.
  Qed.

  Lemma verify_all_ok root proofs :
    verify_all cfg root proofs = Ok tt <-> Forall (fun p => verify_proof cfg root p = Ok tt) proofs.
  Proof.
    induction proofs as [|p ps IH]; cbn [verify_all].
    - split; [constructor|reflexivity].
    - rewrite Forall_cons. destruct (verify_proof_unit root p) as [->|[e ->]].
      + rewrite IH. tauto.
      + split; [discriminate|]. intros [? _]. discriminate.
  Qed.

  Lemma proof_true_verify m p :
    proof_true m p -> verify_proof cfg (tree_root cfg m) p = Ok tt.
  Proof.
    intros (Hi & Hp & Hv). apply verify_proof_ok. rewrite Hp, Hv. cbn [true_proof mp_path].
    rewrite siblings_length, claimed_hash_spec, fold_path_true by exact Hi. now split.
  Qed.

  Lemma calculate_new_root_spec m proofs nv :
    Forall (proof_true m) proofs ->
    (forall k v, (k, v) ∈ nv -> exists p, p ∈ proofs /\ mp_key p = k) ->
    calculate_new_root cfg (tree_root cfg m) proofs nv = Ok (tree_root cfg (write_all nv m)).
  Proof.
    intros Hf Hk. unfold calculate_new_root.
    fold (write_all nv ∅).
    assert (Hva : verify_all cfg (tree_root cfg m) proofs = Ok tt).
    { apply verify_all_ok. eapply Forall_impl; [exact Hf|]. apply proof_true_verify. }
    rewrite Hva.
    assert (Hall : forallb (fun kv => existsb (fun p => mp_key p =? kv.1) proofs) nv = true).
    { apply forallb_forall. intros [k v] Hin. apply elem_of_list_In, Hk in Hin as (p & Hp & <-).
      apply existsb_exists. exists p. split; [now apply elem_of_list_In|]. cbn. apply N.eqb_refl. }
    rewrite Hall.
    destruct proofs as [|p0 ps] eqn:Hps.
    - destruct nv as [|[k v] nv']; [reflexivity|].
      destruct (Hk k v) as (p & Hp & _); [left|]. now apply elem_of_nil in Hp.
    - rewrite <- Hps in *.
      destruct (replay_all_spec m (write_all nv ∅) proofs [] m ∅ Hf) as (m' & P' & Ha & HP & Ht & Hhave).
      + intros i. destruct (decide (i ∈ [])) as [H|_]; [now apply elem_of_nil in H|reflexivity].
      + intros h i x. rewrite lookup_empty. discriminate.
      + intros h i x. rewrite lookup_empty. discriminate.
      + intros j h Hj. now apply elem_of_nil in Hj.
      + assert (Hm : m' = write_all nv m).
        { apply map_eq. intros i. rewrite Ha, (write_all_lookup nv m).
          destruct (decide (i ∈ P')) as [Hi|Hi]; [reflexivity|].
          destruct (write_all nv ∅ !! i) as [v|] eqn:Hw; [exfalso|reflexivity].
          apply write_all_key in Hw as ([k w] & Hin & <-). apply Hk in Hin as (p & Hp & <-).
          apply Hi, HP. right. eauto. }
        assert (Hin0 : p0 ∈ proofs) by (rewrite Hps; left).
        assert (H0 : in_tree cfg (tc_index cfg (mp_key p0))).
        { rewrite Forall_forall in Hf. destruct (Hf p0 Hin0) as [? _]. assumption. }
        destruct (Hhave (tc_index cfg (mp_key p0)) (tc_bits cfg)) as [x Hx];
          [apply HP; right; eauto|lia|].
        rewrite N.div_small in Hx by exact H0.
        assert (Hx' : fold_left (replay_proof cfg (write_all nv ∅)) proofs ∅ !! (tc_bits cfg, 0) = Some x)
          by exact Hx.
        destruct nv as [|kv nv']; rewrite Hx'; f_equal;
          apply Ht in Hx'; [|lia| |lia]; rewrite Hx', Hm; reflexivity.
  Qed.

  (** Conversely, success means every proof was valid and every written key had one. *)
  Lemma calculate_new_root_inv root proofs nv r :
    calculate_new_root cfg root proofs nv = Ok r ->
    Forall (fun p => verify_proof cfg root p = Ok tt) proofs /\
    (forall k v, (k, v) ∈ nv -> exists p, p ∈ proofs /\ mp_key p = k).
  Proof.
    unfold calculate_new_root. intros H.
    assert (Hcase : (nv = [] /\ proofs = []) \/
      (verify_all cfg root proofs = Ok tt /\
       forallb (fun kv => existsb (fun p => mp_key p =? kv.1) proofs) nv = true)).
    { destruct nv as [|kv nv], proofs as [|p ps]; [now left|right..];
        (destruct (verify_all cfg root _) as [[]|e]; [|discriminate]; split; [reflexivity|]);
        destruct (forallb _ _); first [reflexivity|discriminate]. }
    destruct Hcase as [[-> ->]|[Hv Hall]].
    - split; [constructor|]. intros k v Hin. now apply elem_of_nil in Hin.
    - split; [now apply verify_all_ok|]. intros k v Hin. rewrite forallb_forall in Hall.
      apply elem_of_list_In, Hall, existsb_exists in Hin as (p & Hp & He).
      exists p. split; [now apply elem_of_list_In|]. cbn in He. lia.
  Qed.
End merkle_update.

(** ** Consequences for sequences of calls *)

Lemma no_queries_no_cache {V} (cfg : tree_cfg V) ops :
  mk_cache (after_ops cfg (List.filter (fun op => negb (is_proof_query op)) ops)) = ∅.
Proof.
  unfold after_ops. assert (H : mk_cache (merkle_new cfg) = ∅) by reflexivity.
  revert H. generalize (merkle_new cfg). induction ops as [|op ops IH]; intros t H; [exact H|].
  cbn. destruct op; cbn; try (apply IH; first [reflexivity|exact H]).
  - apply IH. unfold merkle_get_mut. now destruct (mk_leaves t !! tc_index cfg k).
Qed.

Lemma pairs_distinct_sub {V} (cfg : tree_cfg V) l l' :
  pairs_distinct cfg l -> (forall x, x ∈ l' -> x ∈ l) -> pairs_distinct cfg l'.
Proof. intros H Hs p q Hp Hq. apply H; now apply Hs. Qed.

Lemma incremental_root {V} (cfg : tree_cfg V) ops proofs nv :
  (tc_bits cfg <= 256)%nat -> ops_typed cfg ops ->
  Forall (proof_true cfg (map_after cfg ops)) proofs ->
  (forall k v, (k, v) ∈ nv -> exists p, p ∈ proofs /\ mp_key p = k) ->
  calculate_new_root cfg (merkle_root cfg (after_ops cfg ops)) proofs nv =
  Ok (merkle_root cfg (after_ops cfg (ops ++ map (fun kv => OpInsert kv.1 kv.2) nv))).
Proof.
  intros Hb Hty Hf Hc.
  destruct (after_ops_ok cfg ops Hb Hty) as [Ht Hl].
  assert (Hty' : ops_typed cfg (map (fun kv : N * V => OpInsert kv.1 kv.2) nv)).
  { intros op k Hin Hk. apply elem_of_list_In, in_map_iff in Hin as ([k' v] & <- & Hin).
    cbn in Hk. injection Hk as ->. apply elem_of_list_In, Hc in Hin as (p & Hp & <-).
    rewrite Forall_forall in Hf. destruct (Hf p Hp) as [Hi _].
    eapply N.lt_le_trans; [exact Hi|]. change two256 with (2 ^ 256). apply N.pow_le_mono_r; lia. }
  destruct (ops_ok cfg (map (fun kv => OpInsert kv.1 kv.2) nv) (after_ops cfg ops) Hb Hty' Ht)
    as [Ht' Hl'].
  unfold after_ops at 2. rewrite fold_left_app. fold (after_ops cfg ops).
  rewrite (merkle_root_spec cfg (after_ops cfg ops)) by apply Ht.
  rewrite merkle_root_spec by apply Ht'. rewrite Hl', Hl.
  rewrite calculate_new_root_spec by assumption. f_equal. f_equal.
  unfold write_all. generalize (map_after cfg ops). clear. induction nv as [|[k v] nv IH]; intros m.
  - reflexivity.
  - cbn [map fold_left]. apply IH.
Qed.

(** Storages with the same contents give the same proofs. *)
Lemma same_proof {V} (cfg : tree_cfg V) t t' m k :
  (tc_bits cfg <= 256)%nat -> tc_index cfg k < two256 -> tree_ok cfg t -> tree_ok cfg t' ->
  mk_leaves t = m -> mk_leaves t' = m ->
  (merkle_proof cfg k t).1 = (merkle_proof cfg k t').1.
Proof.
  intros Hb Hk Ht Ht' Hl Hl'.
  destruct (N.lt_ge_cases (tc_index cfg k) (2 ^ N.of_nat (tc_bits cfg))) as [Hi|Hi].
  - destruct (merkle_proof_spec cfg _ k Ht Hb Hi) as [-> _].
    destruct (merkle_proof_spec cfg _ k Ht' Hb Hi) as [-> _]. now rewrite Hl, Hl'.
  - assert (Hlt : (tc_bits cfg < 256)%nat).
    { destruct (Nat.eq_dec (tc_bits cfg) 256) as [E|E]; [exfalso|lia]. rewrite E in Hi.
      change (2 ^ N.of_nat 256) with two256 in Hi. lia. }
    rewrite !merkle_proof_out; [reflexivity|exact Hlt| |exact Hlt|]; unfold in_tree; lia.
Qed.
