(** Vocabulary for the property that stakers can leave. *)
From Verif Require Export NetworkSpec.
Open Scope N_scope.

(** $PROVE paid to staker [a] for claims, in a log. *)
Definition ev_paid_to (a : N) (ev : staking_event) : N :=
  match ev with EvUnstake b _ n _ => if b =? a then n else 0 | _ => 0 end.
Definition claims_paid (a : N) (log : list stk_entry) : N := list_total (ev_paid_to a) (events log).

(** All of [a]'s stake. *)
Definition whole_stake (s : staking) (a : N) : N := default 0 (bk_stakes (sk_bank s) !! a).

(** In the network, the $PROVE of [a]. *)
Definition prove_balance (n : network) (a : N) : N := tk_balance (bk_prove (sk_bank (w_staking (nw_world n)))) a.
(** The claims of [a] that are not paid yet. *)
Definition open_claims (n : network) (a : N) : list unstake_claim := default [] (sk_claims (w_staking (nw_world n)) !! a).
