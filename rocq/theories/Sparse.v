(** Sparse storage, crates/vapp/src/sparse.rs, and the state-transition program,
    programs/vapp/stf/src/main.rs. *)
From Verif Require Export State Merkle.
Open Scope N_scope.

(** [SparseStorage], crates/vapp/src/sparse.rs 25-29. *)
Record sparse (V : Type) : Type := Sparse {
  sp_inner : gmap N V;
  sp_witnessed : gset N
}.
Arguments Sparse {V}.
Arguments sp_inner {V}.
Arguments sp_witnessed {V}.

(** [SparseStorageError], crates/vapp/src/sparse.rs 33-55 (the two variants that are constructed). *)
Inductive sparse_error : Type :=
| DuplicateProof (index : N)
| VerificationFailed.

Section sparse.
  Context {V : Type} (cfg : tree_cfg V).

  (** The check that a key is witnessed, crates/vapp/src/sparse.rs 64, 74, 83, 92. *)
  Definition guarded {X} (key : N) (s : sparse V) (r : X) : result X panic :=
    if bool_decide (tc_index cfg key ∈ sp_witnessed s) then Ok r else Err KeyNotAllowed.

  (** [impl Storage for SparseStorage], crates/vapp/src/sparse.rs 57-98. *)
  Definition sparse_storage : storage V (sparse V) :=
    {| sto_insert k v s :=
         guarded k s (Sparse (<[tc_index cfg k := v]> (sp_inner s)) (sp_witnessed s));
       sto_entry k s :=
         let v := default (tc_default cfg) (sp_inner s !! tc_index cfg k) in
         guarded k s (v, Sparse (<[tc_index cfg k := v]> (sp_inner s)) (sp_witnessed s));
       sto_get k s := guarded k s (sp_inner s !! tc_index cfg k, s);
       sto_get_mut k s := guarded k s (sp_inner s !! tc_index cfg k, s);
       sto_put k v s := Sparse (<[tc_index cfg k := v]> (sp_inner s)) (sp_witnessed s) |}.

  (** [new], crates/vapp/src/sparse.rs 58-60. *)
  Definition sparse_new : sparse V := Sparse ∅ ∅.

  (** [iter_raw], crates/vapp/src/sparse.rs 108-110. *)
  Definition iter_raw (s : sparse V) : list (N * V) :=
    filter (fun kv => kv.1 ∈ sp_witnessed s) (btree_iter (sp_inner s)).

  (** The loop of [recover], crates/vapp/src/sparse.rs 134-152. *)
  Fixpoint recover_loop (root : N) (proofs : list (mproof V)) (s : sparse V)
      : result (sparse V) sparse_error :=
    match proofs with
    | [] => Ok s
    | p :: ps =>
        let index := tc_index cfg (mp_key p) in
        if bool_decide (index ∈ sp_witnessed s) then Err (DuplicateProof index)
        else
          match verify_proof cfg root p with
          | Err _ => Err VerificationFailed
          | Ok _ =>
              recover_loop root ps
                (Sparse (match mp_value p with
                         | Some v => <[index := v]> (sp_inner s)
                         | None => sp_inner s
                         end) ({[index]} ∪ sp_witnessed s))
          end
    end.

  (** [recover], crates/vapp/src/sparse.rs 126-155: the previous contents are discarded. *)
  Definition recover (root : N) (proofs : list (mproof V)) (s : sparse V)
      : result (sparse V) sparse_error :=
    recover_loop root proofs (Sparse ∅ ∅).

  (** The (key, value) pairs rebuilt from the proofs, crates/vapp/src/merkle.rs 468-475. *)
  Fixpoint keyed_updates (proofs : list (mproof V)) (raw : list (N * V))
      : result (list (N * V)) merkle_error :=
    match raw with
    | [] => Ok []
    | (index, v) :: rest =>
        match List.find (fun p => tc_index cfg (mp_key p) =? index) proofs with
        | None => Err MissingMerkleProofForUpdatedKey
        | Some p =>
            match keyed_updates proofs rest with
            | Ok l => Ok ((mp_key p, v) :: l)
            | Err e => Err e
            end
        end
    end.

  (** [calculate_new_root_sparse], crates/vapp/src/merkle.rs 455-480. *)
  Definition calculate_new_root_sparse (old_root : N) (proofs : list (mproof V)) (s : sparse V)
      : result N merkle_error :=
    if bool_decide (sp_inner s = ∅) && match proofs with [] => true | _ => false end
    then Ok old_root
    else
      match keyed_updates proofs (iter_raw s) with
      | Ok l => calculate_new_root cfg old_root proofs l
      | Err e => Err e
      end.
End sparse.

(** [VAppState<SparseStorage<..>, SparseStorage<..>>], crates/vapp/src/state.rs 88. *)
Definition sparse_state : Type := vstate (sparse account) (sparse bool).

(** [VAppState::execute] on sparse storage, crates/vapp/src/state.rs 160. *)
Definition execute_sparse (E : env) (t : tx) (s : sparse_state) : sparse_state * exec_result :=
  execute (sparse_storage (account_tree E)) (sparse_storage (request_tree E)) E t s.

(** [VAppStfInput], crates/vapp/src/input.rs 15-32 (the [i64] position of each transaction is only
    printed and is dropped). *)
Record stf_input : Type := StfInput {
  si_root : N;
  si_accounts_root : N;
  si_requests_root : N;
  si_state : sparse_state;
  si_account_proofs : list (mproof account);
  si_request_proofs : list (mproof bool);
  si_txs : list tx;
  si_timestamp : N
}.

(** The loop over transactions, programs/vapp/stf/src/main.rs 51-71; [None] is [panic!]. *)
Fixpoint stf_loop (E : env) (txs : list tx) (s : sparse_state) (receipts : list receipt)
    : option (sparse_state * list receipt) :=
  match txs with
  | [] => Some (s, receipts)
  | t :: ts =>
      match execute_sparse E t s with
      | (s', ResOk (Some r)) => stf_loop E ts s' (receipts ++ [r])
      | (s', ResOk None) => stf_loop E ts s' receipts
      | (s', ResRevert _) => stf_loop E ts s' receipts
      | (_, ResPanic _) => None
      end
  end.

(** [main] of the state-transition program, programs/vapp/stf/src/main.rs 29-102: the committed public
    values, or [None] when the program aborts.  The zkVM's input and output channels are replaced by
    argument and result. *)
Definition stf_main (E : env) (i : stf_input) : option step_pv :=
  let s0 := si_state i in
  if negb (container_hash E s0 (si_accounts_root i) (si_requests_root i) =? si_root i) then None
  else
    match recover (account_tree E) (si_accounts_root i) (si_account_proofs i) (vs_accounts s0) with
    | Err _ => None
    | Ok accts =>
        let s1 := with_accounts accts s0 in
        match recover (request_tree E) (si_requests_root i) (si_request_proofs i)
                (vs_transactions s1) with
        | Err _ => None
        | Ok txns =>
            let s2 := with_transactions txns s1 in
            match stf_loop E (si_txs i) s2 [] with
            | None => None
            | Some (s3, receipts) =>
                match calculate_new_root_sparse (account_tree E) (si_accounts_root i)
                        (si_account_proofs i) (vs_accounts s3) with
                | Err _ => None
                | Ok new_accounts_root =>
                    match calculate_new_root_sparse (request_tree E) (si_requests_root i)
                            (si_request_proofs i) (vs_transactions s3) with
                    | Err _ => None
                    | Ok new_requests_root =>
                        Some (StepPv (si_root i)
                                (container_hash E s3 new_accounts_root new_requests_root)
                                (si_timestamp i) (map sol_of_receipt receipts))
                    end
                end
            end
        end
    end.

(** The bytes committed by the program, programs/vapp/stf/src/main.rs 98-101. *)
Definition stf_commit (E : env) (i : stf_input) : option bytes := abi_step <$> stf_main E i.
