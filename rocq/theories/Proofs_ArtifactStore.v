(** Proofs of the properties of the artifact store. *)
From Verif Require Export ArtifactStoreFacts.
Open Scope list_scope.

(** ** Where downloaded bytes come from *)

Lemma origin_invariant {X} (C : codec X) calls s h s' : used C calls s h s' ->
  forall h1 h2, h = h1 ++ h2 ->
  (forall x, serves s h1 x -> forall b t id d, x !! (b, get_s3_key t id) = Some d -> origin C calls s t id d b) /\
  (forall i b t id d, (i, Get b (get_s3_key t id) (AData d)) ∈ h1 -> (exists x, serves s h1 x) -> origin C calls s t id d b).
Proof.
  intros [Hs Hc Hb] h1. induction h1 as [|[i r] h1 IH] using rev_ind; intros h2 Eh.
  - split; [|intros ? ? ? ? ? Hin; now apply elem_of_nil in Hin].
    intros x Hx b t id d Hl. inversion Hx; subst. apply or_start, holds_key, Hl.
  - rewrite <- app_assoc in Eh. destruct (IH _ Eh) as [IH1 IH2]. split.
    + intros x' Hx b t id d Hl. apply serves_snoc in Hx. destruct Hx as (x & Hx & Hr).
      assert (Hput : forall b0 k0 d0 ok, r = Put b0 k0 d0 ok -> <[(b0, k0) := d0]> x !! (b, get_s3_key t id) = Some d -> origin C calls s t id d b).
      { intros b0 k0 d0 ok -> Hl0. destruct (decide ((b0, k0) = (b, get_s3_key t id))) as [[= -> ->]|Hne].
        - rewrite lookup_insert in Hl0. injection Hl0 as ->.
          assert (Hin : (i, Put b (get_s3_key t id) d ok) ∈ h) by (rewrite Eh; apply elem_of_app; right; left).
          destruct (Hc _ _ Hin) as (c & Ec).
          assert (El : of_call i h = of_call i h1 ++ Put b (get_s3_key t id) d ok :: of_call i h2).
          { rewrite Eh, of_call_app. f_equal. change ([(i, Put b (get_s3_key t id) d ok)] ++ h2) with ((i, Put b (get_s3_key t id) d ok) :: h2).
            unfold of_call. rewrite filter_cons_True by reflexivity. reflexivity. }
          destruct (put_by C c _ _ _ _ _ _ _ (Hb i c Ec) El) as (_ & t' & id' & Ek & Hw).
          apply key_inj in Ek. destruct Ek as [<- <-]. destruct Hw as [[_ Hu]|(src & -> & Hg)].
          + eapply or_upload; eauto.
          + eapply or_copy; [exact Ec|]. apply of_call_in in Hg. eapply IH2; eauto.
        - rewrite lookup_insert_ne in Hl0 by exact Hne. eapply IH1; eauto. }
      inversion Hr; subst; eauto.
    + intros j b t id d Hin (x' & Hx). apply serves_snoc in Hx. destruct Hx as (x & Hx & Hr).
      apply elem_of_app in Hin. destruct Hin as [Hin|Hin]; [eapply IH2; eauto|].
      apply elem_of_list_singleton in Hin. injection Hin as -> <-. inversion Hr; subst. eapply IH1; eauto.
Qed.

Lemma download_proof {X} (C : codec X) calls s h s' j c r b t id : used C calls s h s' ->
  calls !! j = Some c -> reads c b t id -> ended C calls h j r ->
  fails r \/ exists d, gives C r d /\ origin C calls s t id d b /\ exists x, moment s h s' x /\ holds x b t id d.
Proof.
  intros Hu Ec Hr (c' & Ec' & H). rewrite Ec in Ec'. injection Ec' as <-.
  destruct (read_got C c _ r b t id Hr H) as [Hf|(d & Hin & Hg)]; [now left|].
  destruct Hg as [Hg|[-> _]]; [|left; right; left; reflexivity]. right. exists d. split; [exact Hg|].
  apply of_call_in in Hin. destruct (serves_get _ _ _ _ _ _ _ (used_serves _ _ _ _ _ Hu) Hin) as (h1 & h2 & x & Eh & H1 & H2 & Hx).
  split; [eapply (proj1 (origin_invariant C calls s h s' Hu h1 _ Eh)); eauto|].
  exists x. split; [exists h1, ((j, Get b (get_s3_key t id) (AData d)) :: h2); auto|]. apply holds_key, Hx.
Qed.

(** ** Only writers change an artifact *)

Lemma quiet_no_put {X} (C : codec X) calls s h s' b t id : used C calls s h s' ->
  (forall i c, calls !! i = Some c -> writes c b t id -> of_call i h = []) ->
  forall i d ok, (i, Put b (get_s3_key t id) d ok) ∉ h.
Proof.
  intros Hu Hq i d ok Hin. destruct (put_writes C _ _ _ _ _ _ _ _ _ _ Hu Hin) as (c & Ec & Hw).
  apply (Hq i c Ec) in Hw. rewrite of_call_nil in Hw. exact (Hw _ Hin).
Qed.

Lemma only_writers_proof {X} (C : codec X) calls s h s' b t id : used C calls s h s' ->
  (forall i c, calls !! i = Some c -> writes c b t id -> of_call i h = []) ->
  forall x, moment s h s' x -> forall d, holds x b t id d <-> holds s b t id d.
Proof.
  intros Hu Hq x (h1 & h2 & -> & H1 & H2) d. rewrite !holds_key.
  rewrite (serves_keeps _ _ _ b (get_s3_key t id) H1); [reflexivity|]. intros i d0 ok Hin.
  apply (quiet_no_put C _ _ _ _ _ _ _ Hu Hq i d0 ok). apply elem_of_app. now left.
Qed.

(** ** The last upload *)

Lemma before_in h i j a r z : before h j i -> h = a ++ (i, r) :: z -> of_call j z = [].
Proof.
  intros (h1 & h2 & E & Hj & Hi) Eh. rewrite E in Eh. apply of_call_nil. intros x Hin.
  assert (Hz : exists m, h2 = m ++ (i, r) :: z).
  { clear Hj Hin. revert h1 E Eh Hi. intros h1 _. revert a. induction h1 as [|e h1 IH]; intros a Eh Hi; [cbn in Eh; eauto|].
    destruct a as [|e' a]; cbn in Eh.
    - injection Eh as -> _. rewrite of_call_nil in Hi. exfalso. apply (Hi r). left.
    - injection Eh as -> Eh. apply (IH a Eh). rewrite of_call_nil in *. intros y Hy. apply (Hi y). now right. }
  destruct Hz as (m & ->). rewrite of_call_nil in Hj. apply (Hj x). apply elem_of_app. right. right. exact Hin.
Qed.

Lemma upload_ran {X} (C : codec X) c b t id d tr : uploads C c b t id d -> runs (program C c) tr (Done true) ->
  tr = [Put b (get_s3_key t id) d true].
Proof.
  intros [->|(item & -> & Es)] H; cbn [program] in H; apply runs_ret in H; destruct H as (ok & H & [= <-]).
  - apply runs_ask in H. exact H.
  - unfold upload in H. rewrite Es in H. apply runs_ask in H. exact H.
Qed.

Lemma latest_proof {X} (C : codec X) calls s h s' i c b t id d : used C calls s h s' ->
  calls !! i = Some c -> uploads C c b t id d -> ended C calls h i (Done true) ->
  (forall j c', j <> i -> calls !! j = Some c' -> writes c' b t id -> before h j i) ->
  holds s' b t id d /\
  forall j c' r, calls !! j = Some c' -> reads c' b t id -> before h i j -> ended C calls h j r -> fails r \/ gives C r d.
Proof.
  intros Hu Ec Hup (c0 & Ec0 & Hrun) Hothers. rewrite Ec in Ec0. injection Ec0 as <-.
  apply (upload_ran C c b t id d _ Hup) in Hrun.
  destruct (of_call_split i h [] _ [] Hrun) as (a & z & Eh & Ha & Hz).
  pose proof (used_serves _ _ _ _ _ Hu) as Hs. rewrite Eh in Hs. apply serves_app in Hs. destruct Hs as (x & Hx & Hs).
  inversion Hs as [|? x1 ? ? ? ? Hr Hrest]; subst. inversion Hr; subst.
  assert (Hno : forall j d0 ok, (j, Put b (get_s3_key t id) d0 ok) ∉ z).
  { intros j d0 ok Hin.
    assert (Hin' : (j, Put b (get_s3_key t id) d0 ok) ∈ a ++ (i, Put b (get_s3_key t id) d true) :: z).
    { apply elem_of_app. right. now right. }
    destruct (put_writes C _ _ _ _ _ _ _ _ _ _ Hu Hin') as (c' & Ec' & Hw).
    destruct (decide (j = i)) as [->|Hne]; [rewrite of_call_nil in Hz; exact (Hz _ Hin)|].
    pose proof (before_in _ _ _ _ _ _ (Hothers j c' Hne Ec' Hw) eq_refl) as Hj. rewrite of_call_nil in Hj. exact (Hj _ Hin). }
  assert (Hstays : forall y z1 z2, z = z1 ++ z2 -> serves (<[(b, get_s3_key t id) := d]> x) z1 y -> y !! (b, get_s3_key t id) = Some d).
  { intros y z1 z2 -> Hy. rewrite (serves_keeps _ _ _ b (get_s3_key t id) Hy), lookup_insert; [reflexivity|].
    intros j d0 ok Hin. apply (Hno j d0 ok). apply elem_of_app. now left. }
  split; [apply holds_key; eapply (Hstays s' z []); [now rewrite app_nil_r|exact Hrest]|].
  intros j c' r Ec' Hreads Hbefore (c1 & Ec1 & Hj). rewrite Ec' in Ec1. injection Ec1 as <-.
  destruct (read_got C c' _ r b t id Hreads Hj) as [Hf|(d' & Hin & Hg)]; [now left|].
  destruct Hg as [Hg|[-> _]]; [|left; right; left; reflexivity]. right.
  apply of_call_in in Hin. apply elem_of_app in Hin.
  assert (Hinz : (j, Get b (get_s3_key t id) (AData d')) ∈ z).
  { destruct Hbefore as (h1 & h2 & E & Hi & Hj1).
    assert (Hcut : exists m, h1 = a ++ (i, Put b (get_s3_key t id) d true) :: m).
    { clear - E Hi. revert h1 E. induction a as [|e a IH]; intros h1 E; destruct h1 as [|e1 h1]; cbn in E.
      - subst h2. rewrite of_call_nil in Hi. exfalso. eapply Hi. left.
      - injection E as -> _. now exists h1.
      - subst h2. rewrite of_call_nil in Hi. exfalso. eapply Hi. right. apply elem_of_app. right. left.
      - injection E as -> E. destruct (IH h1 E) as (m & ->). now exists m. }
    destruct Hcut as (m & ->). rewrite of_call_nil in Hj1. destruct Hin as [Hin|Hin].
    - exfalso. apply (Hj1 (Get b (get_s3_key t id) (AData d'))). apply elem_of_app. now left.
    - apply elem_of_cons in Hin. destruct Hin as [Hin|Hin]; [discriminate|exact Hin]. }
  destruct (serves_get _ _ _ _ _ _ _ Hrest Hinz) as (z1 & z2 & y & Ez & Hy & _ & Hl).
  rewrite (Hstays y z1 _ Ez Hy) in Hl. injection Hl as <-. exact Hg.
Qed.

(** ** When a download gives up *)

Lemma runs_loop_all b id t : forall left tr r, runs (download_loop left b id t) tr r ->
  exists failed, (failed <= left)%nat /\
  ((r = DErr /\ failed = left /\ length tr = left /\ Forall (fun q => forall d, q <> Get b (get_s3_key t id) (AData d)) tr) \/
   exists d pre, r = DOk d /\ tr = pre ++ [Get b (get_s3_key t id) (AData d)] /\ length pre = failed).
Proof.
  induction left as [|left IH]; intros tr r H; cbn [download_loop] in H.
  - cbn in H. destruct H as [-> ->]. exists 0%nat. split; [lia|]. left. repeat split. constructor.
  - apply runs_bind in H. destruct H as (tr1 & tr2 & r1 & -> & H1 & H2).
    apply runs_file in H1. destruct H1 as (a & -> & ->).
    destruct a as [| |d]; cbn [whole] in H2;
      [..|cbn in H2; destruct H2 as [-> ->]; exists 0%nat; split; [lia|]; right; exists d, []; auto];
      (apply IH in H2; destruct H2 as (n & Hn & [(-> & -> & Hl & Hf)|(d & pre & -> & -> & Hl)]);
        [exists (S left); split; [lia|]; left; split; [reflexivity|]; split; [reflexivity|]; split;
           [cbn; lia|]; apply Forall_app; split; [repeat constructor; intros; discriminate|exact Hf]
        |exists (S n); split; [lia|]; right; eexists d, (_ :: pre); split; [reflexivity|]; split; [reflexivity|cbn; lia]]).
Qed.

Lemma gives_up_proof {X} (C : codec X) calls h j c r b t id :
  calls !! j = Some c -> reads c b t id -> ended C calls h j r ->
  (forall d k, Get b k (AData d) ∈ of_call j h -> exists x, deserialize C d = Some x) ->
  fails r ->
  (forall b0 k d, Get b0 k (AData d) ∉ of_call j h) /\
  length (of_call j h) = match c with DownloadRaw _ _ _ | DownloadItem _ _ _ => 5%nat | _ => 1%nat end.
Proof.
  intros Ec Hreads (c' & Ec' & H) Hdes Hf. rewrite Ec in Ec'. injection Ec' as <-.
  set (tr := of_call j h) in *. clearbody tr.
  assert (Hraw : forall d, runs (download_stored id b t) tr d -> (d = DErr /\ (forall b0 k d0, Get b0 k (AData d0) ∉ tr) /\ length tr = 5%nat) \/ exists x, d = DOk x /\ Get b (get_s3_key t id) (AData x) ∈ tr).
  { intros d Hd. pose proof (begun_loop _ _ _ _ _ (runs_begun _ _ _ Hd)) as Hall. unfold download_stored in Hd. apply runs_loop_all in Hd.
    destruct Hd as (n & Hn & [(-> & -> & Hl & Hno)|(x & pre & -> & -> & _)]).
    - left. split; [reflexivity|]. split; [|exact Hl]. intros b0 k d0 Hin. rewrite Forall_forall in Hall, Hno.
      destruct (Hall _ Hin) as (a & [= -> -> <-]). now apply (Hno _ Hin d0).
    - right. exists x. split; [reflexivity|]. apply elem_of_app. right. left. }
  assert (Huri : forall uri d, in_bucket uri b -> runs (download_raw_from_uri id uri t) tr d -> (d = DErr /\ (forall b0 k d0, Get b0 k (AData d0) ∉ tr) /\ length tr = 1%nat) \/ exists x, d = DOk x /\ Get b (get_s3_key t id) (AData x) ∈ tr).
  { intros uri d -> H0. unfold download_raw_from_uri in H0. cbn [pu_scheme pu_host] in H0.
    rewrite bool_decide_true in H0 by reflexivity. apply runs_file in H0. destruct H0 as (a & -> & ->).
    destruct a as [| |x]; cbn [whole]; [left..|right; exists x; split; [reflexivity|left]];
      (split; [reflexivity|]; split; [|reflexivity]; intros b0 k d0 Hin; apply elem_of_list_singleton in Hin; discriminate). }
  assert (Hno : forall x, Get b (get_s3_key t id) (AData x) ∈ tr -> fails (X:=X) (Data (DOk x)) \/ fails (Item (deserialize C x)) -> False).
  { intros x Hin Hff. destruct (Hdes _ _ Hin) as (y & Ey). unfold fails in Hff. rewrite Ey in Hff.
    destruct Hff as [[?|[?|?]]|[?|[?|?]]]; discriminate. }
  destruct Hreads; cbn [program] in H; apply runs_ret in H; destruct H as (z & H & ->);
    try (unfold download_item, download_item_from_uri in H; apply runs_ret in H; destruct H as (d & H & ->));
    first [destruct (Hraw _ H) as [(-> & Hall)|(x & -> & Hin)]|match goal with Hb : in_bucket _ _ |- _ => destruct (Huri _ _ Hb H) as [(-> & Hall)|(x & -> & Hin)] end];
    first [exact Hall|exfalso; eapply Hno; [exact Hin|cbn in Hf; auto]].
Qed.

(** ** Copies *)

Lemma copy_proof {X} (C : codec X) calls s h s' i id t src dst : used C calls s h s' ->
  calls !! i = Some (Copy id t src dst) -> ended C calls h i (Done true) ->
  (forall j c, j <> i -> calls !! j = Some c -> writes c dst t id -> of_call j h = []) ->
  exists d, holds s' dst t id d /\ (holds s dst t id d \/ exists x, moment s h s' x /\ holds x src t id d).
Proof.
  intros Hu Ec (c & Ec' & H) Hothers. rewrite Ec in Ec'. injection Ec' as <-.
  cbn [program] in H. apply runs_ret in H. destruct H as (ok & H & [= <-]).
  pose proof (used_serves _ _ _ _ _ Hu) as Hs.
  assert (Hno : forall j d ok, j <> i -> (j, Put dst (get_s3_key t id) d ok) ∉ h).
  { intros j d ok Hne Hin. destruct (put_writes C _ _ _ _ _ _ _ _ _ _ Hu Hin) as (c & Ecj & Hw).
    apply (Hothers j c Hne Ecj) in Hw. rewrite of_call_nil in Hw. exact (Hw _ Hin). }
  apply runs_copy in H. destruct H as [(z & E & _)|[(a & _ & ?)|(d & E)]]; [|discriminate|].
  - assert (Hq : forall j d ok, (j, Put dst (get_s3_key t id) d ok) ∉ h).
    { intros j d ok Hin. destruct (decide (j = i)) as [->|Hne]; [|exact (Hno j d ok Hne Hin)].
      apply of_call_in in Hin. rewrite E in Hin. apply elem_of_list_singleton in Hin. discriminate. }
    destruct (of_call_split i h [] _ [] E) as (h1 & h2 & Eh & _ & _).
    pose proof Hs as Hs'. rewrite Eh in Hs'. apply serves_app in Hs'. destruct Hs' as (x & Hx & Hrest).
    inversion Hrest as [|? x1 ? ? ? ? Hr Hz]; subst. inversion Hr as [|? ? ? data Hl| | | | | | |]; subst.
    assert (Hl0 : s !! (dst, get_s3_key t id) = Some data).
    { transitivity (x1 !! (dst, get_s3_key t id)); [symmetry; apply (serves_keeps _ _ _ _ _ Hx)|exact Hl]. intros j d ok Hin. apply (Hq j d ok). apply elem_of_app. now left. }
    exists data. split; [|left; apply holds_key, Hl0]. apply holds_key. transitivity (s !! (dst, get_s3_key t id)); [apply (serves_keeps _ _ _ _ _ Hs Hq)|exact Hl0].
  - destruct (of_call_split i h [Head dst (get_s3_key t id) None; Get src (get_s3_key t id) (AData d)] _ [] E) as (h1 & h2 & Eh & Hh1 & Hh2).
    exists d. split.
    + pose proof Hs as Hs'. rewrite Eh in Hs'. apply serves_app in Hs'. destruct Hs' as (x & Hx & Hrest).
      inversion Hrest as [|? x1 ? ? ? ? Hr Hz]; subst. inversion Hr; subst. apply holds_key.
      rewrite (serves_keeps _ _ _ dst (get_s3_key t id) Hz), lookup_insert; [reflexivity|].
      intros j d0 ok Hin. destruct (decide (j = i)) as [->|Hne]; [rewrite of_call_nil in Hh2; exact (Hh2 _ Hin)|].
      apply (Hno j d0 ok Hne). apply elem_of_app. right. now right.
    + right. assert (Hin : (i, Get src (get_s3_key t id) (AData d)) ∈ h) by (apply of_call_in; rewrite E; right; left).
      destruct (serves_get _ _ _ _ _ _ _ Hs Hin) as (g1 & g2 & x & Eg & H1 & H2 & Hx).
      exists x. split; [eexists g1, _; eauto|]. apply holds_key, Hx.
Qed.

(** Into a bucket without the artifact, from one in which nobody changes it. *)
Lemma copy_new_proof {X} (C : codec X) calls s h s' i id t src dst : used C calls s h s' ->
  calls !! i = Some (Copy id t src dst) -> ended C calls h i (Done true) ->
  (forall j c, j <> i -> calls !! j = Some c -> writes c dst t id \/ writes c src t id -> of_call j h = []) ->
  (forall d, ~ holds s dst t id d) ->
  exists d, holds s src t id d /\ holds s' src t id d /\ holds s' dst t id d.
Proof.
  intros Hu Ec He Hothers Hnew.
  destruct (copy_proof C calls s h s' i id t src dst Hu Ec He) as (d & Hd & [Hd0|(x & Hx & Hxd)]); [eauto|now apply Hnew in Hd0|].
  destruct (decide (src = dst)) as [->|Hne].
  - exfalso. destruct He as (c & Ec' & H). rewrite Ec in Ec'. injection Ec' as <-.
    cbn [program] in H. apply runs_ret in H. destruct H as (ok & H & [= <-]).
    assert (Hno : forall j d ok, j <> i -> (j, Put dst (get_s3_key t id) d ok) ∉ h).
    { intros j d0 ok Hne Hin. destruct (put_writes C _ _ _ _ _ _ _ _ _ _ Hu Hin) as (c & Ecj & Hw).
      assert (Hn : of_call j h = []) by (eapply Hothers; eauto). rewrite of_call_nil in Hn. exact (Hn _ Hin). }
    pose proof (used_serves _ _ _ _ _ Hu) as Hs.
    assert (Hfirst : forall r l, of_call i h = r :: l -> (forall d0 ok, r <> Put dst (get_s3_key t id) d0 ok) -> exists h1 h2 x1, h = h1 ++ (i, r) :: h2 /\ serves s h1 x1 /\ serves x1 ((i, r) :: h2) s' /\ x1 !! (dst, get_s3_key t id) = None).
    { intros r l E Hnp. destruct (of_call_split i h [] r l E) as (h1 & h2 & Eh & Hh1 & _).
      pose proof Hs as Hs'. rewrite Eh in Hs'. apply serves_app in Hs'. destruct Hs' as (x1 & Hx1 & Hrest).
      exists h1, h2, x1. split; [exact Eh|]. split; [exact Hx1|]. split; [exact Hrest|].
      rewrite (serves_keeps _ _ _ dst (get_s3_key t id) Hx1).
      - destruct (s !! (dst, get_s3_key t id)) as [d0|] eqn:El; [|reflexivity]. apply holds_key in El. now apply Hnew in El.
      - intros j d0 ok Hin. destruct (decide (j = i)) as [->|Hne]; [rewrite of_call_nil in Hh1; exact (Hh1 _ Hin)|].
        apply (Hno j d0 ok Hne). rewrite Eh. apply elem_of_app. now left. }
    apply runs_copy in H. destruct H as [(z & E & _)|[(a & _ & ?)|(d0 & E)]]; [|discriminate|].
    + destruct (Hfirst _ _ E) as (h1 & h2 & x1 & Eh & Hx1 & Hrest & Hnone); [discriminate|].
      inversion Hrest as [|? x2 ? ? ? ? Hr Hz]; subst. inversion Hr as [|? ? ? data Hl| | | | | | |]; subst.
      pose proof (eq_trans (eq_sym Hl) Hnone). discriminate.
    + destruct (of_call_split i h [Head dst (get_s3_key t id) None] _ _ E) as (h1 & h2 & Eh & Hh1 & _).
      pose proof Hs as Hs'. rewrite Eh in Hs'. apply serves_app in Hs'. destruct Hs' as (x1 & Hx1 & Hrest).
      inversion Hrest as [|? x2 ? ? ? ? Hr Hz]; subst. inversion Hr as [| | | |? ? ? ? Hl| | | |]; subst.
      rewrite (serves_keeps _ _ _ dst (get_s3_key t id) Hx1) in Hl.
      * apply holds_key in Hl. now apply Hnew in Hl.
      * intros j d1 ok Hin. destruct (decide (j = i)) as [->|Hne].
        -- apply of_call_in in Hin. rewrite Hh1 in Hin. apply elem_of_list_singleton in Hin. discriminate.
        -- apply (Hno j d1 ok Hne). apply elem_of_app. now left.
  - assert (Hq : forall j c, calls !! j = Some c -> writes c src t id -> of_call j h = []).
    { intros j c Ecj Hw. destruct (decide (j = i)) as [->|Hnij]; [|eauto].
      rewrite Ec in Ecj. injection Ecj as <-. exfalso. destruct Hw as [(? & ?)|[(? & ?)|(? & [= ? ?])]]; congruence. }
    pose proof (only_writers_proof C calls s h s' src t id Hu Hq) as Hk.
    exists d. split; [apply (Hk x Hx), Hxd|]. split; [|exact Hd].
    apply (Hk s'); [|apply (Hk x Hx), Hxd]. exists h, []. rewrite app_nil_r. split; [reflexivity|].
    split; [apply (used_serves _ _ _ _ _ Hu)|constructor].
Qed.

(** ** Parallel downloads *)

Lemma parallel_proof {X} (C : codec X) calls s h s' b t id file server get chunk concurrency rs arrivals :
  used C calls s h s' ->
  (forall i c, calls !! i = Some c -> writes c b t id -> of_call i h = []) ->
  holds s b t id file -> answers_in s h s' b t id server ->
  (0 < chunk)%nat -> (0 < concurrency)%nat -> (chunk < length file)%nat ->
  tasks server chunk (length file) concurrency = Some rs -> interleaving (map fst rs) arrivals ->
  (all_succeed server chunk (length file) /\
     download_s3_par chunk server get (Z.of_nat (length file)) concurrency arrivals = DOk file) \/
  (~ all_succeed server chunk (length file) /\
     download_s3_par chunk server get (Z.of_nat (length file)) concurrency arrivals = DErr).
Proof.
  intros Hu Hq Hheld Hans Hc Hn Hl Ht Ha.
  assert (Hhonest : honest file server).
  { intros first last n data E. destruct (Hans _ _ _ _ E) as (x & f & Hm & Hx & ->).
    apply (only_writers_proof C calls s h s' b t id Hu Hq x Hm) in Hx. unfold holds in Hheld, Hx. rewrite Hheld in Hx. injection Hx as <-. reflexivity. }
  unfold download_s3_par. destruct (Z.leb_spec (Z.of_nat (length file)) 0); [lia|].
  rewrite Nat2Z.id. destruct (Nat.leb_spec (length file) chunk); [lia|].
  apply (download_chunks_spec file server chunk concurrency arrivals rs); auto; lia.
Qed.
