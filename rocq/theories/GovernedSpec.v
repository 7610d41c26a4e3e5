(** Vocabulary for the property that the stakers decide where the governor is the owner. *)
From Verif Require Export RulesSpec.
Open Scope N_scope.

(** The state at the end of second [t]: after the calls accepted at time [t] or before. *)
Definition net_at (n0 : network) (log : list net_entry) (t : N) : network :=
  fold_left (fun n e => match e with
                        | NAccepted x _ _ n' => if nx_time x <=? t then n' else n
                        | NReverted _ _ _ => n
                        end) log n0.
(** The state after a log. *)
Definition net_final (n0 : network) (log : list net_entry) : network :=
  fold_left (fun n e => match e with NAccepted _ _ _ n' => n' | NReverted _ _ _ => n end) log n0.

(** Whom the governor sees: the prover through which the call is made, or the caller. *)
Definition voter (x : net_ctx) (via : option N) : N := match via with Some p => p | None => nx_sender x end.
(** The accepted votes on proposal [id], voter and choice (0 against, 1 for, 2 abstain), in order. *)
Definition net_ballots (id : N) (log : list net_entry) : list (N * N) :=
  flat_map (fun e => match e with
                     | NAccepted x (CWorld (WVote via i support)) _ _ => if i =? id then [(voter x via, support)] else []
                     | _ => []
                     end) log.
(** The votes for a choice in a list, each with the stake that the prover has in state [n]. *)
Definition votes_for (n : network) (choice : N) (l : list (N * N)) : N := counted (nw_world n) choice l.

(** After log [l], at time [now], proposal [id] has passed: somebody proposed it, who had enough stake then; the time to vote
    is over; nobody voted twice; more stake voted for it than against it; and enough stake took part.  Stakes are those at the
    start of the vote. *)
Definition passed (Y : net_env) (n0 : network) (l : list net_entry) (now id : N) : Prop :=
  exists l0 x0 via actions desc i m l01,
    l = l0 ++ NAccepted x0 (CWorld (WPropose via actions desc)) i m :: l01 /\ ge_id (net_gov Y) actions desc = id /\
    (match via with Some p => prover_of (net_final n0 l0) (nx_sender x0) = p | None => True end) /\
    let g := w_governor (nw_world (net_final n0 l0)) in
    let start := nx_time x0 + gv_delay g in
    let then_ := net_at n0 l start in
    gv_threshold g <= staked_votes (nw_world (net_at n0 l0 (nx_time x0 - 1))) (voter x0 via) /\
    start + gv_period g < now /\ NoDup (map fst (net_ballots id l)) /\
    votes_for then_ 0 (net_ballots id l) < votes_for then_ 1 (net_ballots id l) /\
    iprove_supply (nw_world then_) * quorum_percent (nw_world then_) / 100
      <= votes_for then_ 1 (net_ballots id l) + votes_for then_ 2 (net_ballots id l).

(** Proposal [id] is executed or cancelled. *)
Definition ends (Y : net_env) (id : N) (e : net_entry) : bool :=
  match e with
  | NAccepted _ (CWorld (WExecute actions desc _)) _ _ => ge_id (net_gov Y) actions desc =? id
  | NAccepted _ (CWorld (WCancel _ actions desc)) _ _ => ge_id (net_gov Y) actions desc =? id
  | _ => false
  end.
