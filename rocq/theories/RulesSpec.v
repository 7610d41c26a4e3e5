(** Vocabulary for the property that only owners change the rules. *)
From Verif Require Export NetworkSpec.
Open Scope N_scope.

(** ** The settlement contract *)

(** An accepted call by [o] that sets something, or forks: made directly, or by a proposal that the governor executes. *)
Definition sets_rules (Y : net_env) (o : N) (e : net_entry) : Prop :=
  match e with
  | NAccepted x (CVApp (CAdmin _)) _ _ | NAccepted x (CVApp (CFork _ _)) _ _ => nx_sender x = o
  | NAccepted _ (CWorld (WExecute actions _ _)) _ _ =>
      o = ne_governor Y /\ Exists (fun a => match a with GaVApp (CAdmin _) | GaVApp (CFork _ _) => True | _ => False end) actions
  | _ => False
  end.

(** ** The staking contract *)

(** Its owner, who pays out rewards, and the rate of rewards. *)
Definition staking_rules (n : network) : N * N * N :=
  let s := w_staking (nw_world n) in (sk_owner s, dp_dispenser (sk_dispensing s), dp_rate (sk_dispensing s)).
Definition sets_staking (c : staking_call) : bool :=
  match c with KTransferOwnership _ | KRenounceOwnership | KSetDispenser _ | KUpdateRate _ => true | _ => false end.
(** An accepted call by [o] that sets something: made directly, or by a proposal that the governor executes. *)
Definition sets_staking_rules (Y : net_env) (o : N) (e : net_entry) : Prop :=
  match e with
  | NAccepted x (CWorld (WStaking c)) _ _ => sets_staking c = true /\ nx_sender x = o
  | NAccepted _ (CWorld (WExecute actions _ _)) _ _ =>
      o = ne_governor Y /\ Exists (fun a => match a with GaStaking c => sets_staking c = true | _ => False end) actions
  | _ => False
  end.
