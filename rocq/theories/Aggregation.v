(** The aggregation program, programs/vapp/aggregation/src/main.rs. *)
From Verif Require Export Abi.
Open Scope N_scope.

Section aggregation.
  (** [sha256] (external sha2) and [verify_sp1_proof(&STF_VKEY, digest)] (external sp1_zkvm),
      programs/vapp/aggregation/src/main.rs 28-31; the latter aborts the program when the proof is
      absent, which is [false] here. *)
  Context (sha256 : bytes -> N) (verify_stf : N -> bool).

  (** The decoding loop, programs/vapp/aggregation/src/main.rs 34-40. *)
  Fixpoint decode_all (l : list bytes) : option (list step_pv) :=
    match l with
    | [] => Some []
    | b :: bs => p ← decode_step b; ps ← decode_all bs; Some (p :: ps)
    end.

  (** The consistency loop, programs/vapp/aggregation/src/main.rs 43-64. *)
  Fixpoint consistent (l : list step_pv) : bool :=
    match l with
    | a :: ((b :: _) as rest) =>
        (pv_new_root a =? pv_old_root b) && (pv_timestamp a <=? pv_timestamp b) && consistent rest
    | _ => true
    end.

  (** [main], programs/vapp/aggregation/src/main.rs 17-81: the committed public values, or [None] when
      the program aborts. *)
  Definition aggregate_main (public_values : list bytes) : option step_pv :=
    match public_values with
    | [] => None
    | _ =>
        if forallb (fun pv => verify_stf (sha256 pv)) public_values then
          steps ← decode_all public_values;
          if consistent steps then
            first ← head steps;
            last ← last steps;
            Some (StepPv (pv_old_root first) (pv_new_root last) (pv_timestamp last)
                    (concat (map pv_receipts steps)))
          else None
        else None
    end.

  (** The bytes committed, programs/vapp/aggregation/src/main.rs 79-80. *)
  Definition aggregate_commit (public_values : list bytes) : option bytes :=
    abi_step <$> aggregate_main public_values.
End aggregation.
