(** Runs of the small node, for the examples in [Props_NodeSystem]. *)
From Verif Require Export Proofs_NodeSystem ToyNode.
Open Scope N_scope.

(** Steps from a state. *)
Inductive sys_steps (fuel : nat) (n : node) : system -> list sys_label -> system -> Prop :=
| steps_nil s : sys_steps fuel n s [] s
| steps_cons s l s' ls s'' : sys_step fuel n s l s' -> sys_steps fuel n s' ls s'' -> sys_steps fuel n s (l :: ls) s''.
Lemma steps_run fuel n s ls s' : sys_steps fuel n s ls s' -> forall ls0, sys_run fuel n ls0 s -> sys_run fuel n (ls0 ++ ls) s'.
Proof.
  induction 1 as [s|s l s' ls s'' Hstep _ IH]; intros ls0 H; [now rewrite app_nil_r|].
  change (l :: ls) with ([l] ++ ls). rewrite app_assoc. apply IH. eapply run_step; eauto.
Qed.
Lemma steps_start fuel n ls s : sys_steps fuel n (sys_start fuel n) ls s -> sys_run fuel n ls s.
Proof. intros H. apply (steps_run _ _ _ _ _ H []). constructor. Qed.

(** The background task learns about a request. *)
Definition toy_learns : list sys_label :=
  [LCheck (KOwner (address_bytes toy_node) (Ok toy_owner)); said_unexecutable toy_owner [toy_request];
   LCheck (KInsert [[9; 9]] tt)].
(** A round without success. *)
Definition toy_idle : list sys_label :=
  [LProve (Op (EOwner (address_bytes toy_node) (Err toy_gone))); LBid (Op (EOwner (address_bytes toy_node) (Err toy_down))); LRound].
(** The request is assigned to the node. *)
Definition toy_assigned : list sys_label := map LProve (map Op (asked_assigned toy_node toy_owner 1000 (Ok [toy_request]))).
Definition toy_gives_up : list sys_label :=
  map LProve [Clock 0; Op (ENonce (address_bytes toy_node) (Ok 4)); Op (EFail (fail_message toy_node 4 [9; 9]) (Ok tt))].
(** The request is known when its turn comes. *)
Definition toy_known : list sys_label :=
  toy_learns ++ toy_idle ++ toy_assigned ++ [LProve (Op (EUnexecutable [9; 9] true))] ++ toy_gives_up.
(** The request becomes known while it is being proved. *)
Definition toy_aborted : list sys_label :=
  (toy_assigned ++ map LProve (map Op (downloaded toy_request toy_program toy_stdin)) ++ toy_learns) ++
  LProve (Op (ESetup toy_program TAbort)) :: toy_gives_up.
(** A request without a mode. *)
Definition toy_stops : list sys_label := map LProve toy_prove_panic ++
  [LBid (Op (EOwner (address_bytes toy_node) (Err toy_down))); LPanic].
(** The monitor fails. *)
Definition toy_unmonitored : list sys_label := toy_learns ++ toy_idle ++ [LMonitor (TErr toy_gone)].

Lemma steps_prove fuel n A mk k (a : A) e b c g q ls s : mk a = e -> answer_fits g q e ->
  sys_steps fuel n (System b (k a) c g (request_after e q) None) ls s ->
  sys_steps fuel n (System b (Do A mk k) c g q None) (LProve e :: ls) s.
Proof. intros <- H1 H2. eapply steps_cons; [now apply step_prove|exact H2]. Qed.
Lemma steps_bid fuel n A mk k (a : A) e p c g q ls s : mk a = e ->
  sys_steps fuel n (System (k a) p c g q None) ls s -> sys_steps fuel n (System (Do A mk k) p c g q None) (LBid e :: ls) s.
Proof. intros <- H. eapply steps_cons; [apply step_bid|exact H]. Qed.
Lemma steps_check fuel n A mk k (a : A) e b p g q ls s : mk a = e ->
  sys_steps fuel n (System b p (match k a with Ret _ => check_turn n | next => next end) (registry_after e g) q None) ls s ->
  sys_steps fuel n (System b p (Do A mk k) g q None) (LCheck e :: ls) s.
Proof. intros <- H. eapply steps_cons; [apply step_check|exact H]. Qed.
Ltac toy_step :=
  lazymatch goal with
  | |- sys_steps ?f ?n (System ?b ?p ?c ?g ?q ?o) (?l :: ?ls) ?s =>
      let b' := eval hnf in b in let p' := eval hnf in p in let c' := eval hnf in c in let q' := eval hnf in q in
      change (sys_steps f n (System b' p' c' g q' o) (l :: ls) s);
      first
        [eapply steps_prove; [reflexivity|first [exact I|vm_compute; reflexivity|cbn; exists [9; 9]; split; [reflexivity|set_solver]]|]
        |eapply steps_bid; [reflexivity|]
        |eapply steps_check; [reflexivity|]
        |eapply steps_cons; [first [apply step_round; exact I|apply step_monitor_error|apply step_panic; now right]|]]
  end.
Ltac toy_steps := eexists; split; [apply steps_start; cbn; unfold sys_start; repeat toy_step; apply steps_nil|].
Lemma toy_known_runs : exists s, sys_run 12 toy_node toy_known s /\ sy_returned s = None.
Proof. toy_steps. reflexivity. Qed.
Lemma toy_aborted_runs : exists s, sys_run 12 toy_node toy_aborted s /\ sy_returned s = None.
Proof. toy_steps. reflexivity. Qed.
Lemma toy_stops_runs : exists s, sys_run 12 toy_node toy_stops s /\ sy_returned s = Some false.
Proof. toy_steps. reflexivity. Qed.
Lemma toy_unmonitored_runs : exists s, sys_run 12 toy_node toy_unmonitored s /\ sy_returned s = Some true.
Proof. toy_steps. reflexivity. Qed.
