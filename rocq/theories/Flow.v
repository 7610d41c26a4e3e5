(** Programs that talk to the outside: at each step one request is made and an answer comes back.

    [flow Ev X] is the type of such programs with a result in [X]; an event in [Ev] records a request
    together with its answer.  Answers are arbitrary, so all behaviours of servers, clocks and other tasks
    are covered. *)
From Verif Require Export Base.

(** [Do A mk k] waits for an answer [a : A], which is recorded as [mk a], and goes on with [k a]
    (the [await] points of crates/node/core/src/serial.rs 99-803, crates/network/rpc/src/retry.rs 35-110). *)
Inductive flow (Ev X : Type) : Type :=
| Ret (x : X)
| Do (A : Type) (mk : A -> Ev) (k : A -> flow Ev X).
Arguments Ret {Ev X} x.
Arguments Do {Ev X} A mk k.

(** Sequencing ([await] followed by the rest, crates/node/core/src/serial.rs 99-803). *)
Fixpoint flow_bind {Ev X Y} (p : flow Ev X) (f : X -> flow Ev Y) : flow Ev Y :=
  match p with
  | Ret x => f x
  | Do A mk k => Do A mk (fun a => flow_bind (k a) f)
  end.

(** One request and its answer (an [await], crates/node/core/src/serial.rs 99-803). *)
Definition ask {Ev A} (mk : A -> Ev) : flow Ev A := Do A mk Ret.

(** The program recorded with other events (no counterpart in the code).  It lets a program of
    crates/network/rpc/src/retry.rs 35-110 be run inside crates/node/core/src/serial.rs 99-803. *)
Fixpoint flow_map {Ev Ev' X} (g : Ev -> Ev') (p : flow Ev X) : flow Ev' X :=
  match p with
  | Ret x => Ret x
  | Do A mk k => Do A (fun a => g (mk a)) (fun a => flow_map g (k a))
  end.

Declare Scope flow_scope.
Delimit Scope flow_scope with flow.
Notation "'ask!' x := e 'in' k" := (flow_bind e (fun x => k))
  (at level 200, x pattern, e at level 100, k at level 200, right associativity) : flow_scope.

(** [runs p trace x]: the program [p] can make the requests and get the answers of [trace] and end with [x].
    (No counterpart in the code: the meaning of the [await] points of crates/node/core/src/serial.rs
    99-803.) *)
Fixpoint runs {Ev X} (p : flow Ev X) (trace : list Ev) (x : X) : Prop :=
  match p with
  | Ret y => trace = [] /\ x = y
  | Do A mk k => exists a rest, trace = mk a :: rest /\ runs (k a) rest x
  end.

Lemma runs_bind {Ev X Y} (p : flow Ev X) (f : X -> flow Ev Y) tr y :
  runs (flow_bind p f) tr y <-> exists tr1 tr2 x, tr = tr1 ++ tr2 /\ runs p tr1 x /\ runs (f x) tr2 y.
Proof.
  revert tr. induction p as [x|A mk k IH]; intros tr; cbn [flow_bind runs].
  - split.
    + intros H. exists [], tr, x. auto.
    + intros (tr1 & tr2 & x' & -> & [-> ->] & H). exact H.
  - split.
    + intros (a & rest & -> & H). apply IH in H. destruct H as (tr1 & tr2 & x & -> & H1 & H2).
      exists (mk a :: tr1), tr2, x. split; [reflexivity|]. split; [|exact H2]. exists a, tr1. auto.
    + intros (tr1 & tr2 & x & -> & (a & rest & -> & H1) & H2). exists a, (rest ++ tr2). split; [reflexivity|].
      apply IH. eauto 6.
Qed.

Lemma runs_ask {Ev A} (mk : A -> Ev) tr x : runs (ask mk) tr x <-> tr = [mk x].
Proof.
  unfold ask. cbn [runs]. split.
  - intros (a & rest & -> & -> & ->). reflexivity.
  - intros ->. eauto.
Qed.

Lemma runs_map {Ev Ev' X} (g : Ev -> Ev') (p : flow Ev X) tr x :
  runs (flow_map g p) tr x <-> exists tr', tr = map g tr' /\ runs p tr' x.
Proof.
  revert tr. induction p as [y|A mk k IH]; intros tr; cbn [flow_map runs].
  - split.
    + intros [-> ->]. exists []. auto.
    + intros (tr' & -> & -> & ->). auto.
  - split.
    + intros (a & rest & -> & H). apply IH in H. destruct H as (tr' & -> & H). exists (mk a :: tr'). split; [reflexivity|]. eauto.
    + intros (tr' & -> & a & rest & -> & H). exists a, (map g rest). split; [reflexivity|]. apply IH. eauto.
Qed.
