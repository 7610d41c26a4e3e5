(** A small tree used only in examples, and boolean tests for the hypotheses of the theorems on trees. *)
From Verif Require Export MerkleUpdate.
From Coq Require Import ZifyBool ZifyN ZifyNat.
Open Scope N_scope.

(** ** Boolean tests *)

Definition pairs_distinctb {V} (cfg : tree_cfg V) (l : list (N * N)) : bool :=
  forallb (fun p => forallb (fun q =>
    implb (tc_pair cfg p.1 p.2 =? tc_pair cfg q.1 q.2) ((p.1 =? q.1) && (p.2 =? q.2))) l) l.

Lemma pairs_distinctb_ok {V} (cfg : tree_cfg V) l : pairs_distinctb cfg l = true -> pairs_distinct cfg l.
Proof.
  unfold pairs_distinctb. rewrite forallb_forall. intros H p q Hp Hq He.
  apply elem_of_list_In in Hp, Hq. apply H in Hp. rewrite forallb_forall in Hp. apply Hp in Hq.
  rewrite He, N.eqb_refl in Hq. cbn [implb] in Hq. destruct p, q. cbn in *.
  apply andb_true_iff in Hq as [?%N.eqb_eq ?%N.eqb_eq]. now subst.
Qed.

Definition values_distinctb (cfg : tree_cfg N) (l : list N) : bool :=
  forallb (fun v => negb (tc_hash cfg v =? 0) &&
    forallb (fun w => implb (tc_hash cfg v =? tc_hash cfg w) (v =? w)) l) l.

Lemma values_distinctb_ok cfg l : values_distinctb cfg l = true -> values_distinct cfg l.
Proof.
  unfold values_distinctb. rewrite forallb_forall. intros H. split.
  - intros v w Hv Hw He. apply elem_of_list_In in Hv, Hw. apply H in Hv.
    apply andb_true_iff in Hv as [_ Hv]. rewrite forallb_forall in Hv. apply Hv in Hw.
    rewrite He, N.eqb_refl in Hw. cbn in Hw. now apply N.eqb_eq.
  - intros v Hv He. apply elem_of_list_In, H in Hv. rewrite He in Hv. discriminate.
Qed.

Definition ops_typedb {V} (cfg : tree_cfg V) (ops : list (store_op V)) : bool :=
  forallb (fun op => match op_key op with Some k => tc_index cfg k <? two256 | None => true end) ops.

Lemma ops_typedb_ok {V} (cfg : tree_cfg V) ops : ops_typedb cfg ops = true -> ops_typed cfg ops.
Proof.
  unfold ops_typedb. rewrite forallb_forall. intros H op k Hin Hk.
  apply elem_of_list_In, H in Hin. rewrite Hk in Hin. lia.
Qed.

Lemma map_eq_list (m1 m2 : gmap N N) : map_to_list m1 = map_to_list m2 -> m1 = m2.
Proof. intros H. rewrite <- (list_to_map_to_list m1), H. apply list_to_map_to_list. Qed.

Definition map_option {X Y E} (f : X -> Y) (r : result X E) : option Y :=
  match r with Ok x => Some (f x) | Err _ => None end.

(** ** A tree of depth 4 over numbers *)

Definition small_hash (v : N) : N := v + 1.
Definition small_pair (l r : N) : N := N.land (1000003 * l + 8191 * r + 12345) (N.ones 60).
Definition small_tree : tree_cfg N :=
  {| tc_bits := 4; tc_index k := k; tc_default := 0; tc_hash := small_hash; tc_pair := small_pair |}.

(** The same contents built in two ways. *)
Definition ops_a : list (store_op N) :=
  [OpInsert 5 1; OpProof 5; OpEntryPut 4 44; OpProof 9; OpInsert 12 120; OpGetMutPut 5 50; OpGet 5;
   OpEntry 0; OpGetMutPut 3 30; OpInsert 13 130; OpProof 0].
Definition ops_b : list (store_op N) :=
  [OpInsert 13 130; OpInsert 12 120; OpInsert 0 0; OpInsert 5 50; OpTrack 1; OpInsert 4 44].
