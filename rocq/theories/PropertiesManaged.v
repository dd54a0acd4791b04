(** C40: the managed (C#) wrappers and native memory. *)
From Verif Require Import ManagedProofs.
From Coq Require Import List Bool Arith Lia.
Import ListNotations.

(** Wrapper [i] owns a live native box of class [c]. *)
Definition holds (w : world) (i : nat) (c : class) : Prop :=
  exists n k, nth_error (wrs w) i = Some (mkWr c (Some (Whole n)) Owned) /\
              nth_error (heap w) n = Some k /\ ce_live k = true /\ ce_class k = c.
(** Wrapper [i] was disposed or moved from. *)
Definition gone (w : world) (i : nat) : Prop :=
  exists r, nth_error (wrs w) i = Some r /\ wr_inner r = None.

(** A program that follows the rules of ManagedSpec.v - it moves only what it owns,
    uses no view after its owner was disposed, moved or reallocated, keeps its
    arguments alive, and calls none of three faulty methods - never double-frees,
    never uses freed memory and never confuses types, whatever it calls, in any order,
    whatever the garbage collector finalizes meanwhile and whichever calls throw. *)
Theorem C40_obedient_programs_are_memory_safe l :
  obeys empty_world [] l -> exists w, run empty_world l = Done w.
Proof. intros H. destruct (run_inv l _ _ inv_empty H) as (w & _ & E & _). eauto. Qed.
Print Assumptions C40_obedient_programs_are_memory_safe.

(** Once such a program's wrappers are all disposed, nothing is left allocated but
    vectors. *)
Theorem C40_obedient_programs_leak_only_vectors l w :
  obeys empty_world [] l -> run empty_world l = Done w ->
  exists w', run w (map Dispose (seq 0 (length (wrs w)))) = Done w' /\
    forall n k, nth_error (heap w') n = Some k -> ce_live k = true -> ce_class k = CVec.
Proof.
  intros H E. destruct (run_inv l _ _ inv_empty H) as (w0 & bk & E0 & I). rewrite E in E0. injection E0 as <-.
  destruct (run_disposes (length (wrs w)) w bk 0 I eq_refl ltac:(intros; lia)) as (w' & bk' & R & I' & N).
  exists w'. split; [exact R|]. intros n k Ek Lv. destruct (class_eq_dec (ce_class k) CVec) as [|Nv]; auto.
  destruct (iv_leak _ _ _ I' n k Ek Lv Nv) as [[]|(i & r & Er & _ & Pr)]. rewrite (N i r Er) in Pr. discriminate.
Qed.
Print Assumptions C40_obedient_programs_leak_only_vectors.

(** Before that, each live box but the vectors has exactly one owner among the
    wrappers, and what an owner holds is alive: no box is owned twice, none is lost. *)
Theorem C40_every_box_has_one_owner l w :
  obeys empty_world [] l -> run empty_world l = Done w ->
  (forall n k, nth_error (heap w) n = Some k -> ce_live k = true -> ce_class k <> CVec ->
     exists! i, owns w i n) /\
  (forall i n, owns w i n -> exists k, nth_error (heap w) n = Some k /\ ce_live k = true).
Proof.
  intros H E. destruct (run_inv l _ _ inv_empty H) as (w0 & bk & E0 & I). rewrite E in E0. injection E0 as <-. split.
  - intros n k Ek Lv Nv. destruct (iv_leak _ _ _ I n k Ek Lv Nv) as [[]|(i & Hi)]. exists i. split; auto.
    intros j Hj. apply (iv_dist _ _ _ I i j n); auto.
  - intros i n (r & Er & Or & Pr). destruct (iv_own _ _ _ I i r Er Or) as (_ & _ & Q).
    destruct (Q _ Pr) as (m & k & Q1 & Ek & Lv & _). injection Q1 as <-. eauto.
Qed.
Print Assumptions C40_every_box_has_one_owner.

Lemma list_ext {A} : forall l l' : list A, (forall i, nth_error l i = nth_error l' i) -> l = l'.
Proof.
  induction l as [|x l IH]; intros [|y l'] H; auto; try (specialize (H 0); discriminate H).
  f_equal; [specialize (H 0); cbn in H; congruence|]. apply IH. intros i. apply (H (S i)).
Qed.

(** ** Any program *)
(** Disposing twice (or disposing and being finalized) is disposing once. *)
Theorem C40_dispose_is_idempotent w w' i : dispose w i = Done w' -> dispose w' i = Done w'.
Proof.
  intros H. assert (W : exists r, nth_error (wrs w) i = Some r /\ wrs w' = set_nth (wrs w) i null_inner).
  { unfold dispose in H. destruct (nth_error (wrs w) i) as [r|]; [|discriminate]. exists r. split; auto.
    destruct (wr_own r), (wr_inner r) as [p|]; try (injection H as <-; reflexivity).
    destruct (native_drop (wr_class r)); [|injection H as <-; reflexivity|discriminate].
    destruct (native_take (heap w) p (wr_class r)); [injection H as <-; reflexivity|discriminate]. }
  destruct W as (r & E & W). unfold dispose. rewrite W, nth_set_nth, Nat.eqb_refl, E. cbn.
  assert (S : set_nth (set_nth (wrs w) i null_inner) i null_inner = set_nth (wrs w) i null_inner).
  { apply list_ext. intros j. rewrite !nth_set_nth. destruct (j =? i); auto. destruct (nth_error (wrs w) j); reflexivity. }
  destruct (wr_own r), w'; cbn in W |- *; subst; rewrite S; reflexivity.
Qed.
Print Assumptions C40_dispose_is_idempotent.

(** After Dispose a wrapper is null, and every method given a null wrapper throws
    and changes nothing - but for the vector's indexer. *)
Theorem C40_disposed_is_gone w w' i : dispose w i = Done w' -> gone w' i.
Proof.
  intros H. unfold dispose in H. destruct (nth_error (wrs w) i) as [r|] eqn:E; [|discriminate].
  assert (G : forall h, gone (mkWorld h (set_nth (wrs w) i null_inner)) i).
  { intros h. exists (null_inner r). cbn [wrs]. rewrite nth_set_nth, Nat.eqb_refl, E. auto. }
  destruct (wr_own r), (wr_inner r) as [p|]; try (injection H as <-; apply G).
  destruct (native_drop (wr_class r)); [|injection H as <-; apply G|discriminate].
  destruct (native_take (heap w) p (wr_class r)); [injection H as <-; apply G|discriminate].
Qed.
Print Assumptions C40_disposed_is_gone.
Theorem C40_using_a_gone_wrapper_throws w m args gc moved a :
  m <> VecSet -> length args = length (me_params (sig m)) -> In a args -> gone w a ->
  call w (sig m) args gc moved = Throw w.
Proof.
  intros Nm Len Ia (r & Er & Pr). unfold call. destruct (negb _); [reflexivity|].
  assert (S : exists ls tl, me_params (sig m) = ls ++ tl /\ Forall (fun p => pa_mode p <> Steal) ls /\ length tl <= 1).
  { destruct m; try destruct v; cbn; try congruence;
    first [ exists [], []; cbn; split; [reflexivity|]; split; [constructor|lia]
          | eexists [], [_]; cbn; split; [reflexivity|]; split; [constructor|lia]
          | eexists [_], [_]; cbn; split; [reflexivity|]; split; [repeat (apply Forall_cons; [discriminate|]); constructor|lia]
          | eexists [_; _], [_]; cbn; split; [reflexivity|]; split; [repeat (apply Forall_cons; [discriminate|]); constructor|lia] ]. }
  destruct S as (ls & tl & Eps & NS & Lt). rewrite Eps in *. clear Eps.
  assert (X : exists qs, eval_args w (ls ++ tl) args = Throw (w, qs)).
  { clear Nm. revert args Len Ia. induction ls as [|p ls IH]; intros args Len Ia.
    - cbn [app] in *. destruct tl as [|p [|? ?]]; cbn in Lt; [| |lia].
      + destruct args; [destruct Ia|discriminate Len].
      + destruct args as [|b [|c args]]; try discriminate Len. destruct Ia as [->|[]]. cbn. rewrite Er, Pr. eauto.
    - inversion NS as [|? ? Np NS']; subst. cbn [app eval_args]. destruct args as [|b args]; [destruct Ia|].
      destruct (nth_error (wrs w) b) as [rb|] eqn:Eb; [|eauto]. destruct (wr_inner rb) as [q|] eqn:Pb; [|eauto].
      destruct Ia as [->|Ia]; [rewrite Er in Eb; injection Eb as <-; congruence|].
      cbn in Len. injection Len as Len. destruct (IH NS' args Len Ia) as (qs & E).
      destruct (pa_mode p); try congruence; rewrite E; eauto. }
  destruct X as (qs & ->). reflexivity.
Qed.
Print Assumptions C40_using_a_gone_wrapper_throws.

(** A moved-from wrapper is gone: [new State(box)], the setters and [push] take the
    box away, so the wrapper cannot be used again and disposing it frees nothing. *)
Theorem C40_moving_nulls_the_wrapper w m args gc moved w' a :
  call w (sig m) args gc moved = Done w' -> In a (stolen (me_params (sig m)) args) -> gone w' a.
Proof.
  intros H Ia. unfold call in H. destruct (negb _); [discriminate|].
  assert (KEEP : forall w0 j, (exists r, nth_error (wrs w0) j = Some r /\ wr_inner r = None) ->
            forall i, exists r, nth_error (set_nth (wrs w0) i null_inner) j = Some r /\ wr_inner r = None).
  { intros w0 j (r & E & P) i. rewrite nth_set_nth, E. destruct (j =? i); cbn; eexists; split; auto. }
  assert (EV : forall ps l w0 w1 qs, eval_args w0 ps l = Done (w1, qs) ->
            (forall j, gone w0 j -> gone w1 j) /\ forall j, In j (stolen ps l) -> gone w1 j).
  { clear - KEEP. induction ps as [|p ps IH]; intros [|b l] w0 w1 qs E; try discriminate E.
    - injection E as <- _. split; auto. intros j [].
    - cbn [eval_args] in E. destruct (nth_error (wrs w0) b) as [rb|] eqn:Eb; [|discriminate]. destruct (wr_inner rb) as [q|]; [|discriminate].
      set (w0' := match pa_mode p with Steal => _ | _ => _ end) in E.
      destruct (eval_args w0' ps l) as [[w2 qs2]|[? ?]|] eqn:E2; try discriminate. injection E as <- _.
      destruct (IH _ _ _ _ E2) as [K S]. assert (K0 : forall j, gone w0 j -> gone w0' j).
      { intros j Hj. subst w0'. destruct (pa_mode p); auto. apply (KEEP w0 j Hj b). }
      split; [auto|]. intros j Hj. unfold stolen in Hj. cbn [combine filter] in Hj.
      destruct (pa_mode p) eqn:Md; try (apply S; exact Hj). cbn [map snd] in Hj. destruct Hj as [<-|Hj]; [|apply S; exact Hj].
      apply K. subst w0'. exists (null_inner rb). cbn [wrs]. rewrite nth_set_nth, Nat.eqb_refl, Eb. auto. }
  destruct (eval_args w (me_params (sig m)) args) as [[w1 qs]|[? ?]|] eqn:E; try discriminate.
  destruct (EV _ _ _ _ _ E) as [_ S]. specialize (S a Ia).
  assert (FI : forall l w0 w1, finalize w0 l = Done w1 -> gone w0 a -> gone w1 a).
  { clear - KEEP. induction l as [|i l IH]; intros w0 w1 F G; cbn in F; [injection F as <-; auto|].
    assert (GD : match dispose w0 i with Done u | Throw u => gone u a | UB _ => True end).
    { unfold dispose. destruct (nth_error (wrs w0) i) as [ri|]; [|auto].
      destruct (wr_own ri); [|apply (KEEP w0 a G i)|apply (KEEP w0 a G i)]. destruct (wr_inner ri); [|apply (KEEP w0 a G i)].
      destruct (native_drop (wr_class ri)); [|apply (KEEP w0 a G i)|auto].
      destruct (native_take (heap w0) p (wr_class ri)); [apply (KEEP w0 a G i)|exact Logic.I]. }
    destruct (dispose w0 i); [eapply IH; eauto|eapply IH; eauto|discriminate]. }
  destruct (finalize w1 gc) as [w2|w2|] eqn:F; try discriminate. specialize (FI _ _ _ F S).
  destruct (native_args _ _ _) as [h|]; [|discriminate]. injection H as <-.
  destruct FI as (r & Er & Pr). pose proof (nth_len _ _ _ Er).
  unfold add_result. destruct (me_result (sig m)) as [|c|k c o]; [exists r; auto| |].
  - exists r. cbn [wrs]. rewrite nth_error_app1 by auto. auto.
  - destruct (nth_error qs k); [|exists r; auto]. exists r. cbn [wrs]. rewrite nth_error_app1 by auto. auto.
Qed.
Print Assumptions C40_moving_nulls_the_wrapper.

(** ** The guards *)
(** The mutating methods refuse a baseline held as a shared reference, and
    [ObjectCreate] a string it does not own, without effect. *)
Theorem C40_shared_baselines_are_not_mutated w m args gc moved a r :
  In (NotShared a) (me_checks (sig m)) -> nth_error args a = Some r ->
  option_map wr_own (nth_error (wrs w) r) = Some SharedRef ->
  call w (sig m) args gc moved = Throw w.
Proof.
  intros Ic Ea Ow. unfold call.
  assert (F : forallb (check_ok w args) (me_checks (sig m)) = false).
  { destruct (forallb _ _) eqn:F; auto. rewrite forallb_forall in F. specialize (F _ Ic). cbn in F. rewrite Ea, Ow in F. discriminate. }
  rewrite F. reflexivity.
Qed.
Print Assumptions C40_shared_baselines_are_not_mutated.
Theorem C40_guarded_methods m :
  (exists k, In (NotShared k) (me_checks (sig m)) /\ option_map pa_class (nth_error (me_params (sig m)) k) = Some CBaseline) <->
  In m [GetStateMut; Register; Example_ObjectCreate; Example_ObjectRemove; Ball_Unregister; Ball_ObjectCreate; Ball_ObjectRemove].
Proof.
  split.
  - intros (k & Hk & Hc). destruct m; try destruct v; cbn in Hk |- *; intuition (try discriminate).
    inversion H; subst; discriminate Hc.
  - cbn. intuition subst; solve [exists 0; cbn; auto | exists 1; cbn; auto].
Qed.
Print Assumptions C40_guarded_methods.
Theorem C40_object_create_wants_an_owned_string w c b s gc moved o :
  option_map wr_own (nth_error (wrs w) s) = Some o -> o <> Owned ->
  call w (sig Example_ObjectCreate) [c; b; s] gc moved = Throw w.
Proof.
  intros Ow No. unfold call. cbn [sig me_checks forallb]. unfold check_ok at 2. cbn [nth_error]. rewrite Ow.
  destruct o; [congruence| |]; cbn; rewrite andb_false_r; reflexivity.
Qed.
Print Assumptions C40_object_create_wants_an_owned_string.

(** The drops marked "unreachable" in the C# code are: a wrapper of one of those
    classes never owns, whatever the program does. *)
Theorem C40_unreachable_drops_are_unreachable l : forall w w',
  (forall i o, In (Alias i o) l -> o <> Owned) ->
  (forall i r, nth_error (wrs w) i = Some r -> wr_own r = Owned -> native_drop (wr_class r) <> DropThrows) ->
  run w l = Done w' ->
  forall i r, nth_error (wrs w') i = Some r -> wr_own r = Owned -> native_drop (wr_class r) <> DropThrows.
Proof.
  assert (KEEP : forall w0 j (P : wrapper -> Prop), (forall r, P r -> P (null_inner r)) ->
            (forall i r, nth_error (wrs w0) i = Some r -> P r) ->
            forall i r, nth_error (set_nth (wrs w0) j null_inner) i = Some r -> P r).
  { intros w0 j P Hn H i r E. rewrite nth_set_nth in E. destruct (i =? j); [|eauto].
    destruct (nth_error (wrs w0) i) eqn:E0; cbn in E; [|discriminate]. injection E as <-. eauto. }
  pose (P := fun r : wrapper => wr_own r = Owned -> native_drop (wr_class r) <> DropThrows).
  assert (PN : forall r, P r -> P (null_inner r)) by (intros r H; exact H).
  assert (DI : forall w0 i, (forall j r, nth_error (wrs w0) j = Some r -> P r) ->
            match dispose w0 i with Done u | Throw u => forall j r, nth_error (wrs u) j = Some r -> P r | UB _ => True end).
  { intros w0 i H. unfold dispose. destruct (nth_error (wrs w0) i) as [ri|]; [|auto].
    destruct (wr_own ri); [|apply (KEEP w0 i P PN H)|apply (KEEP w0 i P PN H)]. destruct (wr_inner ri) as [p|]; [|apply (KEEP w0 i P PN H)].
    destruct (native_drop (wr_class ri)); [|apply (KEEP w0 i P PN H)|auto].
    destruct (native_take (heap w0) p (wr_class ri)); [apply (KEEP w0 i P PN H)|exact Logic.I]. }
  assert (FI : forall l w0, (forall j r, nth_error (wrs w0) j = Some r -> P r) ->
            match finalize w0 l with Done u | Throw u => forall j r, nth_error (wrs u) j = Some r -> P r | UB _ => True end).
  { clear l. induction l as [|i l IH]; intros w0 H; cbn [finalize]; [exact H|]. specialize (DI w0 i H).
    destruct (dispose w0 i); [apply IH, DI|apply IH, DI|exact Logic.I]. }
  assert (EV : forall ps l w0, (forall j r, nth_error (wrs w0) j = Some r -> P r) ->
            match eval_args w0 ps l with Done (u, _) | Throw (u, _) => forall j r, nth_error (wrs u) j = Some r -> P r | UB _ => True end).
  { clear l. induction ps as [|p ps IH]; intros [|b l] w0 H; cbn [eval_args]; try exact H.
    destruct (nth_error (wrs w0) b) as [rb|]; [|exact H]. destruct (wr_inner rb); [|exact H].
    set (w0' := match pa_mode p with Steal => _ | _ => _ end).
    assert (H' : forall j r, nth_error (wrs w0') j = Some r -> P r).
    { subst w0'. destruct (pa_mode p); [exact H| |exact H]. apply (KEEP w0 b P PN H). }
    specialize (IH l w0' H'). destruct (eval_args w0' ps l) as [[? ?]|[? ?]|]; exact IH. }
  assert (SN : forall (l0 : list wrapper) x, (forall j r, nth_error l0 j = Some r -> P r) -> P x -> forall j r, nth_error (l0 ++ [x]) j = Some r -> P r).
  { intros l0 x H Px j r E. rewrite nth_snoc in E. destruct (j =? length l0); [injection E as <-; auto|eauto]. }
  induction l as [|o l IH]; intros w w' Al H R; cbn in R; [injection R as <-; exact H|].
  assert (ST : match step w o with Done u | Throw u => forall j r, nth_error (wrs u) j = Some r -> P r | UB _ => True end).
  { destruct o as [m args gc moved|i|i o]; cbn [step]; [|exact (DI w i H)|].
    - unfold call. destruct (negb _); [exact H|]. specialize (EV (me_params (sig m)) args w H).
      destruct (eval_args w (me_params (sig m)) args) as [[w1 qs]|[? ?]|]; auto.
      specialize (FI gc w1 EV). destruct (finalize w1 gc) as [w2|w2|]; auto. destruct (native_args _ _ _) as [h|]; [|exact Logic.I].
      unfold add_result. destruct (me_result (sig m)) as [|c|k c o] eqn:Er; auto.
      + apply SN; auto. intros _. destruct m; try destruct v; cbn in Er; try discriminate Er; injection Er as <-; discriminate.
      + destruct (nth_error qs k); [|auto]. apply SN; auto. intros C. cbn in C. destruct m; try destruct v; cbn in Er; try discriminate Er; inversion Er; subst; discriminate.
    - unfold alias. destruct (nth_error (wrs w) i) as [r|]; [|exact H]. destruct (wr_inner r); [|exact H].
      apply SN; [exact H|]. intros C. cbn in C. exfalso. apply (Al i o); cbn; auto. }
  destruct (step w o) as [u|u|]; [| |discriminate]; apply (IH u w'); auto; intros i o' Hi; apply (Al i o'); right; exact Hi.
Qed.
Print Assumptions C40_unreachable_drops_are_unreachable.

(** ** What is wrong *)
(** Vectors are never freed, by any program. *)
Theorem C40_vectors_always_leak l : forall w w' n k,
  run w l = Done w' -> nth_error (heap w) n = Some k -> ce_class k = CVec -> ce_live k = true ->
  exists k', nth_error (heap w') n = Some k' /\ ce_class k' = CVec /\ ce_live k' = true.
Proof.
  pose (L := fun (h : list cell) n => exists k, nth_error h n = Some k /\ ce_class k = CVec /\ ce_live k = true).
  assert (TK : forall h n q c h', L h n -> native_take h q c = inl h' -> c <> CVec -> L h' n).
  { intros h n q c h' (k & E & C & Lv) T Nc. unfold native_take in T. destruct q as [x|]; [|discriminate].
    destruct (nth_error h x) as [kx|] eqn:Ex; [|discriminate]. destruct (negb (ce_live kx)); [discriminate|].
    destruct (fits (ce_class kx) c) eqn:Ft; [|discriminate]. injection T as <-.
    exists k. split; auto. rewrite nth_set_nth. destruct (Nat.eqb_spec n x) as [->|]; [|auto].
    exfalso. rewrite E in Ex. injection Ex as <-. rewrite C in Ft. destruct c; try discriminate Ft; congruence. }
  assert (DI : forall w n i, L (heap w) n -> match dispose w i with Done u | Throw u => L (heap u) n | UB _ => True end).
  { intros w n i H. unfold dispose. destruct (nth_error (wrs w) i) as [ri|]; [|auto].
    destruct (wr_own ri); auto. destruct (wr_inner ri) as [p|]; auto. destruct (native_drop (wr_class ri)) eqn:Dk; auto.
    destruct (native_take (heap w) p (wr_class ri)) eqn:T; auto. eapply TK; eauto. intros C. rewrite C in Dk. discriminate. }
  assert (FI : forall l w n, L (heap w) n -> match finalize w l with Done u | Throw u => L (heap u) n | UB _ => True end).
  { clear l. induction l as [|i l IH]; intros w n H; cbn [finalize]; [exact H|]. specialize (DI w n i H).
    destruct (dispose w i); [apply IH, DI|apply IH, DI|exact Logic.I]. }
  assert (EV : forall ps l w u x, eval_args w ps l = Done (u, x) \/ eval_args w ps l = Throw (u, x) -> heap u = heap w).
  { clear. induction ps as [|p ps IH]; intros [|b l] w u x E; cbn [eval_args] in E; try (destruct E as [E|E]; congruence).
    destruct (nth_error (wrs w) b) as [rb|]; [|destruct E; congruence]. destruct (wr_inner rb); [|destruct E; congruence].
    set (w0' := match pa_mode p with Steal => _ | _ => _ end) in *.
    assert (Q : heap w0' = heap w) by (subst w0'; destruct (pa_mode p); reflexivity).
    destruct (eval_args w0' ps l) as [[u' x']|[u' x']|] eqn:E2; destruct E as [E|E]; try discriminate; inversion E; subst; rewrite <- Q; eapply IH; eauto. }
  assert (NA : forall ps qs h n h', L h n -> native_args h ps qs = inl h' -> (forall p, In p ps -> pa_mode p = Borrow \/ pa_native p <> CVec) -> L h' n).
  { clear - TK. induction ps as [|p ps IH]; intros [|q qs] h n h' H E Sf; cbn [native_args] in E; try (injection E as <-; auto; fail).
    destruct (if class_eqb _ _ then _ else _); [discriminate|].
    assert (Sf' : forall p', In p' ps -> pa_mode p' = Borrow \/ pa_native p' <> CVec) by (intros p' I'; apply Sf; right; auto).
    destruct (Sf p (or_introl eq_refl)) as [Md|Nc].
    - rewrite Md in E. destruct (native_borrow h q (pa_native p)); [discriminate|]. eapply IH; eauto.
    - destruct (pa_mode p).
      + destruct (native_borrow h q (pa_native p)); [discriminate|]. eapply IH; eauto.
      + destruct (native_take h q (pa_native p)) eqn:T; [|discriminate]. exact (IH _ _ _ _ (TK _ _ _ _ _ H T Nc) E Sf').
      + destruct (native_take h q (pa_native p)) eqn:T; [|discriminate]. exact (IH _ _ _ _ (TK _ _ _ _ _ H T Nc) E Sf'). }
  assert (MS : forall m p, In p (me_params (sig m)) -> pa_mode p = Borrow \/ pa_native p <> CVec).
  { intros m p Ip. destruct m; try destruct v; cbn in Ip; repeat (destruct Ip as [<-|Ip]; [first [left; reflexivity|right; discriminate]|]); destruct Ip. }
  assert (ST : forall w o n, L (heap w) n -> match step w o with Done u | Throw u => L (heap u) n | UB _ => True end).
  { intros w o n H. destruct o as [m args gc moved|i|i o]; cbn [step]; [|exact (DI w n i H)|].
    - unfold call. destruct (negb _); [exact H|].
      destruct (eval_args w (me_params (sig m)) args) as [[w1 qs]|[w1 qs]|] eqn:E; [| |exact Logic.I].
      2: { rewrite (EV _ _ _ _ _ (or_intror E)). exact H. }
      assert (H1 : L (heap w1) n) by (rewrite (EV _ _ _ _ _ (or_introl E)); exact H).
      specialize (FI gc w1 n H1). destruct (finalize w1 gc) as [w2|w2|]; [|exact FI|exact Logic.I].
      destruct (native_args (heap w2) (me_params (sig m)) qs) as [h|] eqn:A; [|exact Logic.I].
      pose proof (NA _ _ _ _ _ FI A (MS m)) as H2.
      set (h' := match me_moves (sig m) with Some _ => _ | None => _ end).
      assert (H3 : L h' n).
      { subst h'. destruct (me_moves (sig m)); auto. destruct (nth_error qs n0); auto. destruct moved; auto.
        destruct H2 as (k & Ek & C & Lv). unfold bump. unfold L. rewrite nth_set_nth, Ek. destruct (n =? cell_of p); cbn; eexists; split; eauto. }
      unfold add_result. destruct (me_result (sig m)); [exact H3| |destruct (nth_error qs k); exact H3].
      destruct H3 as (k & Ek & CL). exists k. cbn [heap]. split; [|exact CL].
      rewrite nth_error_app1 by (apply (nth_len _ _ _ Ek)). exact Ek.
    - unfold alias. destruct (nth_error (wrs w) i) as [r|]; [|exact H]. destruct (wr_inner r); exact H. }
  induction l as [|o l IH]; intros w w' n k R E C Lv; cbn in R; [injection R as <-; eauto|].
  assert (H : L (heap w) n) by (exists k; auto). specialize (ST w o n H).
  destruct (step w o) as [u|u|]; [| |discriminate]; destruct ST as (k' & E' & C' & Lv'); apply (IH u w' n k'); auto.
Qed.
Print Assumptions C40_vectors_always_leak.

Ltac hold H n k := destruct H as (n & k & ? & ? & ? & ?).
Ltac grind := repeat match goal with
  | H : nth_error ?l ?i = Some _ |- context [nth_error ?l ?i] => rewrite H
  | H : ce_live ?k = _ |- context [ce_live ?k] => rewrite H
  | H : ce_class ?k = _ |- context [ce_class ?k] => rewrite H
  | _ => progress cbn
  end.

(** [a.Value = b.Value] - any state, of any value class - hands the inside of [b] to
    the native side as a box to be freed. *)
Theorem C40_assigning_a_borrowed_value_is_undefined w a b v :
  holds w a CState -> holds w b CState ->
  run w [Call (StateValue v) [b] [] false; Call (StateSetValue v) [a; length (wrs w)] [] false] = UB BadFree.
Proof.
  intros Ha Hb. hold Ha na ka. hold Hb nb kb.
  cbn [run step]. unfold call at 1. cbn [sig me_checks forallb negb me_params eval_args]. rewrite H3.
  cbn [wr_inner pa_mode lend finalize native_args pa_class pa_passed pa_native]. rewrite class_eqb_refl.
  unfold native_borrow, ptr_valid, ptr_class. rewrite H4, H5. cbn [negb option_map]. rewrite H6, fits_refl.
  cbn [me_moves sig me_result add_result nth_error cell_of heap wrs].
  unfold call. cbn [sig me_checks forallb negb me_params eval_args wrs].
  rewrite nth_error_app1 by (apply (nth_len _ _ _ H)). rewrite H. cbn [wr_inner pa_mode lend steal wrs].
  rewrite nth_snoc, Nat.eqb_refl. cbn [wr_inner finalize native_args pa_class pa_passed pa_native heap].
  unfold lend, steal. cbn [native_args pa_class pa_passed pa_native pa_mode]. rewrite !class_eqb_refl.
  unfold native_borrow, ptr_valid, ptr_class. rewrite H0, H1. cbn [negb option_map]. rewrite H2, fits_refl. reflexivity.
Qed.
Print Assumptions C40_assigning_a_borrowed_value_is_undefined.

(** [ExampleContract.ObjectRemove] leaves the handle's wrapper owning the box it
    gave away: disposing (or finalizing) it afterwards frees the box twice. *)
Theorem C40_object_remove_then_dispose_is_undefined w b o moved :
  holds w b CBaseline -> holds w o CObjectHandle ->
  run w [Call Example_ObjectRemove [b; o] [] moved; Dispose o] = UB DoubleFree.
Proof.
  intros Hb Ho. hold Hb nb kb. hold Ho no ko. assert (Nn : no <> nb) by congruence.
  cbn [run step]. unfold call. cbn [sig me_checks forallb check_ok nth_error]. rewrite H. cbn [option_map wr_own is_shared negb andb].
  cbn [me_params eval_args]. rewrite H. cbn [wr_inner pa_mode lend]. rewrite H3. cbn [wr_inner pa_mode].
  cbn [finalize]. unfold lend. cbn [native_args pa_class pa_passed pa_native pa_mode].
  rewrite !class_eqb_refl. unfold native_borrow, ptr_valid, ptr_class. rewrite H0, H1. cbn [negb option_map]. rewrite H2, fits_refl.
  unfold native_take. rewrite H4, H5. cbn [negb]. rewrite H6, fits_refl.
  cbn [me_moves nth_error cell_of add_result me_result]. cbn [dispose]. unfold dispose. cbn [wrs heap]. rewrite H3.
  cbn [wr_own wr_inner native_drop wr_class]. unfold native_take.
  assert (E : exists kk, nth_error (if moved then bump (set_nth (heap w) no (fun k => mkCell (ce_class k) false (ce_epoch k))) nb
                       else set_nth (heap w) no (fun k => mkCell (ce_class k) false (ce_epoch k))) no = Some kk /\ ce_live kk = false).
  { destruct moved; unfold bump; rewrite ?nth_set_nth, Nat.eqb_refl, H4; cbn; [destruct (no =? nb); cbn|]; eexists; split; reflexivity. }
  destruct E as (kk & -> & ->). reflexivity.
Qed.
Print Assumptions C40_object_remove_then_dispose_is_undefined.

(** A state obtained from a baseline and used after the baseline is disposed, or
    after an object creation that moved the states, reads freed memory. *)
Theorem C40_a_view_outliving_its_baseline_is_undefined w b h v :
  holds w b CBaseline -> holds w h CStateHandle ->
  run w [Call GetState [b; h] [] false; Dispose b; Call (StateValue v) [length (wrs w)] [] false] = UB UseAfterFree.
Proof.
  intros Hb Hh. hold Hb nb kb. hold Hh nh kh.
  cbn [run step]. unfold call at 1. cbn [sig me_checks forallb negb me_params eval_args]. rewrite H. cbn [wr_inner pa_mode lend]. rewrite H3.
  cbn [wr_inner pa_mode lend finalize]. unfold lend. cbn [native_args pa_class pa_passed pa_native pa_mode]. rewrite !class_eqb_refl.
  unfold native_borrow, ptr_valid, ptr_class. rewrite H0, H1, H4, H5. cbn [negb option_map]. rewrite H2, H6, !fits_refl.
  cbn [me_moves me_result add_result nth_error cell_of heap wrs].
  unfold dispose. cbn [wrs heap]. rewrite nth_error_app1 by (apply (nth_len _ _ _ H)). rewrite H.
  cbn [wr_own wr_inner native_drop wr_class]. unfold native_take. rewrite H0, H1. cbn [negb]. rewrite H2, fits_refl.
  unfold call. cbn [sig me_checks forallb negb me_params eval_args wrs heap]. rewrite nth_set_nth, nth_snoc, Nat.eqb_refl.
  pose proof (nth_len _ _ _ H). destruct (Nat.eqb_spec (length (wrs w)) b); [lia|].
  cbn [wr_inner finalize]. unfold lend. cbn [native_args pa_class pa_passed pa_native pa_mode heap]. rewrite !class_eqb_refl.
  unfold native_borrow, ptr_valid. rewrite nth_set_nth, Nat.eqb_refl, H0. reflexivity.
Qed.
Print Assumptions C40_a_view_outliving_its_baseline_is_undefined.
Theorem C40_a_view_outliving_a_move_is_undefined w b h c s v :
  holds w b CBaseline -> holds w h CStateHandle -> holds w c CContract -> holds w s CBox ->
  run w [Call GetState [b; h] [] false; Call Example_ObjectCreate [c; b; s] [] true;
         Call (StateValue v) [length (wrs w)] [] false] = UB UseAfterFree.
Proof.
  intros Hb Hh Hc Hs. hold Hb nb kb. hold Hh nh kh. hold Hc nc kc. hold Hs ns ks.
  assert (nb <> ns) by congruence. assert (nc <> ns) by congruence. assert (s <> b) by congruence.
  cbn [run step]. unfold call at 1. cbn [sig me_checks forallb negb me_params eval_args]. rewrite H. cbn [wr_inner pa_mode lend]. rewrite H3.
  cbn [wr_inner pa_mode lend finalize]. unfold lend. cbn [native_args pa_class pa_passed pa_native pa_mode]. rewrite !class_eqb_refl.
  unfold native_borrow, ptr_valid, ptr_class. rewrite H0, H1, H4, H5. cbn [negb option_map]. rewrite H2, H6, !fits_refl.
  cbn [me_moves me_result add_result nth_error cell_of heap wrs].
  set (W := mkWorld _ _). unfold call at 1.
  assert (NB : nth_error (wrs W) b = Some (mkWr CBaseline (Some (Whole nb)) Owned)) by (unfold W; cbn [wrs]; rewrite nth_error_app1 by (apply (nth_len _ _ _ H)); exact H).
  assert (NC : nth_error (wrs W) c = Some (mkWr CContract (Some (Whole nc)) Owned)) by (unfold W; cbn [wrs]; rewrite nth_error_app1 by (apply (nth_len _ _ _ H7)); exact H7).
  assert (NS : nth_error (wrs W) s = Some (mkWr CBox (Some (Whole ns)) Owned)) by (unfold W; cbn [wrs]; rewrite nth_error_app1 by (apply (nth_len _ _ _ H11)); exact H11).
  assert (NV : nth_error (wrs W) (length (wrs w)) = Some (mkWr CState (Some (Inside nb (epoch_at (heap w) nb) CState)) SharedRef)) by (unfold W; cbn [wrs]; rewrite nth_snoc, Nat.eqb_refl; reflexivity).
  assert (HW : heap W = heap w) by reflexivity. clearbody W.
  cbn [sig me_checks forallb check_ok nth_error]. rewrite NB, NS. cbn [option_map wr_own is_shared is_owned negb andb].
  cbn [me_params eval_args]. rewrite NC. cbn [wr_inner pa_mode lend]. rewrite NB. cbn [wr_inner pa_mode lend]. rewrite NS. cbn [wr_inner pa_mode steal finalize].
  unfold lend, steal. cbn [native_args pa_class pa_passed pa_native pa_mode heap wrs]. rewrite !class_eqb_refl, HW.
  unfold native_borrow, ptr_valid, ptr_class. rewrite H8, H9, H0, H1. cbn [negb option_map]. rewrite H10, H2, !fits_refl.
  unfold native_take. rewrite H12, H13. cbn [negb]. rewrite H14, fits_refl.
  cbn [me_moves me_result add_result nth_error cell_of heap wrs].
  unfold call. cbn [sig me_checks forallb negb me_params eval_args wrs heap].
  assert (LV : length (wrs w) < length (set_nth (wrs W) s null_inner)) by (rewrite length_set_nth; apply (nth_len _ _ _ NV)).
  rewrite nth_error_app1 by exact LV. rewrite nth_set_nth, NV. pose proof (nth_len _ _ _ H11).
  destruct (Nat.eqb_spec (length (wrs w)) s); [lia|]. cbn [wr_inner pa_mode lend finalize].
  unfold lend. cbn [native_args pa_class pa_passed pa_native pa_mode heap]. rewrite class_eqb_refl.
  unfold native_borrow, ptr_valid. rewrite nth_error_app1 by (unfold bump; rewrite !length_set_nth; apply (nth_len _ _ _ H0)).
  unfold bump, epoch_at. rewrite !nth_set_nth, Nat.eqb_refl, H0. destruct (Nat.eqb_spec nb ns); [contradiction|]. cbn [option_map ce_live ce_epoch].
  rewrite H1. cbn [andb]. replace (S (ce_epoch kb) =? ce_epoch kb) with false; [reflexivity|]. symmetry. apply Nat.eqb_neq. lia.
Qed.
Print Assumptions C40_a_view_outliving_a_move_is_undefined.

(** The garbage collector may finalize a wrapper that is used for the last time in a
    call, while the native function is using its box. *)
Theorem C40_last_use_races_with_the_finalizer w b :
  holds w b CBaseline -> run w [Call IsMain [b] [b] false] = UB UseAfterFree.
Proof.
  intros Hb. hold Hb nb kb. cbn [run step]. unfold call. cbn [sig me_checks forallb negb me_params eval_args]. rewrite H.
  cbn [wr_inner pa_mode lend finalize]. unfold dispose. rewrite H. cbn [wr_own wr_inner native_drop wr_class].
  unfold native_take. rewrite H0, H1. cbn [negb]. rewrite H2, fits_refl. cbn [finalize]. unfold lend.
  cbn [native_args pa_class pa_passed pa_native pa_mode heap]. rewrite class_eqb_refl.
  unfold native_borrow, ptr_valid. rewrite nth_set_nth, Nat.eqb_refl, H0. reflexivity.
Qed.
Print Assumptions C40_last_use_races_with_the_finalizer.

(** The ball's [ObjectCreate] always passes the wrong object: a boxed handle where a
    contract is expected. *)
Theorem C40_ball_object_create_confuses_types w b c moved :
  holds w b CBaseline -> holds w c CContract ->
  run w [Call Ball_ObjectCreate [b; c] [] moved] = UB TypeConfusion.
Proof.
  intros Hb Hc. hold Hb nb kb. hold Hc nc kc. cbn [run step]. unfold call.
  cbn [sig me_checks forallb check_ok nth_error]. rewrite H. cbn [option_map wr_own is_shared negb andb].
  cbn [me_params eval_args]. rewrite H. cbn [wr_inner pa_mode lend]. rewrite H3. cbn [wr_inner pa_mode finalize].
  unfold lend. cbn [native_args pa_class pa_passed pa_native pa_mode]. rewrite class_eqb_refl.
  unfold native_borrow at 1, ptr_valid, ptr_class. rewrite H0, H1. cbn [negb option_map]. rewrite H2, fits_refl. reflexivity.
Qed.
Print Assumptions C40_ball_object_create_confuses_types.
(** So does the vector's indexer when assigned to; and when the vector was disposed
    it throws, but only after taking the keyframe, which is lost. *)
Theorem C40_vector_assignment_confuses_types w v k :
  holds w v CVec -> holds w k CKeyframe -> run w [Call VecSet [k; v] [] false] = UB TypeConfusion.
Proof.
  intros Hv Hk. hold Hv nv kv. hold Hk nk kk. assert (v <> k) by congruence. assert (nv <> nk) by congruence.
  cbn [run step]. unfold call. cbn [sig me_checks forallb check_ok nth_error]. rewrite H, H3. cbn [option_map wr_own is_shared is_owned negb andb].
  cbn [me_params eval_args]. rewrite H3. cbn [wr_inner pa_mode steal wrs]. rewrite nth_set_nth, H. destruct (Nat.eqb_spec v k); [contradiction|].
  cbn [wr_inner pa_mode finalize]. unfold steal. cbn [native_args pa_class pa_passed pa_native pa_mode heap]. rewrite class_eqb_refl.
  unfold native_take. rewrite H4, H5. cbn [negb]. rewrite H6, fits_refl. reflexivity.
Qed.
Print Assumptions C40_vector_assignment_confuses_types.
Theorem C40_assigning_to_a_disposed_vector_loses_the_keyframe w v k r :
  nth_error (wrs w) v = Some r -> wr_own r = Owned -> wr_inner r = None -> holds w k CKeyframe ->
  exists w', call w (sig VecSet) [k; v] [] false = Throw w' /\ gone w' k /\ heap w' = heap w.
Proof.
  intros Ev Ov Pv Hk. hold Hk nk kk. assert (v <> k) by (intros ->; rewrite H in Ev; injection Ev as <-; discriminate Pv).
  unfold call. cbn [sig me_checks forallb check_ok nth_error]. rewrite Ev, H. cbn [option_map wr_own is_shared is_owned negb andb].
  rewrite Ov. cbn [is_shared negb andb]. cbn [me_params eval_args]. rewrite H. cbn [wr_inner pa_mode steal wrs].
  rewrite nth_set_nth, Ev. destruct (Nat.eqb_spec v k); [contradiction|]. rewrite Pv. eexists. split; [reflexivity|].
  split; [|reflexivity]. exists (null_inner (mkWr CKeyframe (Some (Whole nk)) Owned)). cbn [wrs]. rewrite nth_set_nth, Nat.eqb_refl, H. auto.
Qed.
Print Assumptions C40_assigning_to_a_disposed_vector_loses_the_keyframe.

(** The setter of a state has no guard: a state got through the read-only accessor
    can be written. *)
Theorem C40_read_only_states_are_writable w b h x :
  holds w b CBaseline -> holds w h CStateHandle -> holds w x CBox ->
  exists w', run w [Call GetState [b; h] [] false; Call (StateSetValue VBox) [length (wrs w); x] [] false] = Done w' /\
    option_map wr_own (nth_error (wrs w') (length (wrs w))) = Some SharedRef /\ gone w' x.
Proof.
  intros Hb Hh Hx. hold Hb nb kb. hold Hh nh kh. hold Hx nx kx. assert (nb <> nx) by congruence.
  cbn [run step]. unfold call at 1. cbn [sig me_checks forallb negb me_params eval_args]. rewrite H. cbn [wr_inner pa_mode lend]. rewrite H3.
  cbn [wr_inner pa_mode lend finalize]. unfold lend. cbn [native_args pa_class pa_passed pa_native pa_mode]. rewrite !class_eqb_refl.
  unfold native_borrow, ptr_valid, ptr_class. rewrite H0, H1, H4, H5. cbn [negb option_map]. rewrite H2, H6, !fits_refl.
  cbn [me_moves me_result add_result nth_error cell_of heap wrs].
  unfold call. cbn [sig me_checks forallb negb me_params eval_args wrs heap]. rewrite nth_snoc, Nat.eqb_refl.
  cbn [wr_inner pa_mode lend wrs]. pose proof (nth_len _ _ _ H7). rewrite nth_error_app1 by auto. rewrite H7.
  cbn [wr_inner pa_mode steal finalize heap]. unfold lend, steal, value_class. cbn [native_args pa_class pa_passed pa_native pa_mode heap].
  rewrite !class_eqb_refl. unfold native_borrow, ptr_valid, ptr_class, epoch_at. rewrite H0, H1, Nat.eqb_refl. cbn [andb negb]. rewrite fits_refl.
  unfold native_take. rewrite H8, H9. cbn [negb]. rewrite H10, fits_refl. cbn [me_moves me_result add_result].
  eexists. split; [reflexivity|]. cbn [wrs heap]. unfold gone. cbn [wrs]. rewrite !nth_set_nth, nth_snoc, !Nat.eqb_refl. split.
  - destruct (Nat.eqb_spec (length (wrs w)) x); reflexivity.
  - exists (null_inner (mkWr CBox (Some (Whole nx)) Owned)). rewrite nth_error_app1 by auto. rewrite H7. auto.
Qed.
Print Assumptions C40_read_only_states_are_writable.

(** ** Examples *)
Definition exProg : list op :=
  [ Call NewBaseline [] [] false;                            (* 0 *)
    Call Register [0] [] true;                               (* 1 *)
    Call Contract_Handle [1] [] false;                       (* 2 *)
    Call GetContractData [0; 2] [] false;                    (* 3 *)
    Call ContractData_Id [3] [] false;                       (* 4 *)
    Call ContractId_Read [4] [2] false;                      (* the handle is collected *)
    Call Contract_States [1] [] false;                       (* 5 *)
    Call States_Id [5] [] false;                             (* 6 *)
    Call NewBox [] [] false;                                 (* 7 *)
    Call Example_ObjectCreate [1; 0; 7] [3] true;            (* 8 *)
    Call BindState [0; 6; 8] [] false;                       (* 9 *)
    Call GetStateMut [0; 9] [] false;                        (* 10 *)
    Call NewBox [] [] false;                                 (* 11 *)
    Call (StateSetValue VBox) [10; 11] [] false;
    Call GetState [0; 9] [] false;                           (* 12 *)
    Call (StateValue VBox) [12] [] false;                    (* 13 *)
    Call ReadBox [13] [] false;
    Call ReadBox [11] [] false;                              (* throws: moved *)
    Alias 0 SharedRef;                                       (* 14 *)
    Call IsMain [14] [] false;
    Call Register [14] [] false;                             (* throws: shared *)
    Call NewVec [] [] false;                                 (* 15 *)
    Call NewBox [] [] false;                                 (* 16 *)
    Call (NewKeyframe VBox) [16] [] false;                   (* 17 *)
    Call VecPush [15; 17] [] true;
    Call VecGet [15] [] false;                               (* 18 *)
    Call KeyframeTime [18] [] false;
    Dispose 0; Dispose 0; Dispose 12 ].
Example exProg_obeys : obeys empty_world [] exProg.
Proof. apply obeysb_ok. vm_compute. reflexivity. Qed.
Example exProg_runs : exists w, run empty_world exProg = Done w /\ length (wrs w) = 19 /\ length (live_cells w) = 5.
Proof. eexists. split; [vm_compute; reflexivity|]. split; reflexivity. Qed.
(** The refutations' hypotheses hold in such a world. *)
Definition exWorld : world :=
  match run empty_world (firstn 13 exProg ++ [Call (NewState VBox) [11] [] false; Call NewBox [] [] false; Call (NewState VBox) [13] [] false;
                            Call NewVec [] [] false; Call NewBox [] [] false; Call (NewKeyframe VBox) [16] [] false; Call NewBox [] [] false])
  with Done w => w | _ => empty_world end.
Example exWorld_holds :
  holds exWorld 12 CState /\ holds exWorld 14 CState /\ holds exWorld 0 CBaseline /\ holds exWorld 8 CObjectHandle /\
  holds exWorld 9 CStateHandle /\ holds exWorld 1 CContract /\ holds exWorld 18 CBox /\ holds exWorld 15 CVec /\ holds exWorld 17 CKeyframe.
Proof.
  repeat split; unfold holds; vm_compute; do 2 eexists; repeat split; reflexivity.
Qed.

(** ** What each call does *)
Lemma eval_args_effect : forall ps args w w1 qs, eval_args w ps args = Done (w1, qs) ->
  heap w1 = heap w /\ length args = length ps /\ length qs = length ps /\
  (forall i, nth_error (wrs w1) i = option_map (fun r => if existsb (Nat.eqb i) (stolen ps args) then null_inner r else r) (nth_error (wrs w) i)) /\
  (forall k q, nth_error qs k = Some q -> exists a r, nth_error args k = Some a /\ nth_error (wrs w) a = Some r /\ wr_inner r = Some q).
Proof.
  induction ps as [|p ps IH]; intros [|a args] w w1 qs E; try discriminate E.
  - injection E as <- <-. cbn. split; [auto|]. split; [auto|]. split; [auto|]. split.
    + intros i. destruct (nth_error (wrs w) i); reflexivity.
    + intros [|k] q H; discriminate.
  - cbn [eval_args] in E. destruct (nth_error (wrs w) a) as [r|] eqn:Er; [|discriminate]. destruct (wr_inner r) as [q|] eqn:Eq; [|discriminate].
    set (w0 := match pa_mode p with Steal => _ | _ => _ end) in E.
    destruct (eval_args w0 ps args) as [[w2 qs2]|[? ?]|] eqn:E2; try discriminate. injection E as <- <-.
    destruct (IH _ _ _ _ E2) as (Hh & L1 & L2 & W & Q).
    assert (H0 : heap w0 = heap w) by (unfold w0; destruct (pa_mode p); reflexivity).
    assert (W0 : forall i, nth_error (wrs w0) i = option_map (fun r => if (match pa_mode p with Steal => true | _ => false end) && (i =? a) then null_inner r else r) (nth_error (wrs w) i)).
    { intros i. unfold w0. destruct (pa_mode p); cbn [wrs andb]; try (destruct (nth_error (wrs w) i); reflexivity).
      rewrite nth_set_nth. destruct (i =? a); destruct (nth_error (wrs w) i); reflexivity. }
    split; [congruence|]. cbn [length]. split; [congruence|]. split; [congruence|]. split.
    + intros i. rewrite W, W0. destruct (nth_error (wrs w) i) as [ri|]; [|reflexivity]. cbn [option_map]. f_equal.
      unfold stolen. cbn [combine filter]. destruct (pa_mode p); cbn [map snd existsb andb orb]; fold (stolen ps args).
      * destruct (existsb _ (stolen ps args)); reflexivity.
      * destruct (i =? a); destruct (existsb _ (stolen ps args)); reflexivity.
      * destruct (existsb _ (stolen ps args)); reflexivity.
    + intros [|k] q' H; cbn in H.
      * injection H as <-. exists a, r. auto.
      * destruct (Q k q' H) as (a' & r' & A & B & C). rewrite W0 in B. destruct (nth_error (wrs w) a') as [r0|] eqn:E0; [|discriminate].
        cbn in B. injection B as <-. exists a', r0. split; [exact A|]. split; [exact E0|].
        destruct (_ && _); [discriminate C|exact C].
Qed.
Definition takes (ps : list param) (qs : list ptr) (n : nat) : bool :=
  existsb (fun '(p, q) => match pa_mode p with Borrow => false | _ => cell_of q =? n end) (combine ps qs).
Lemma native_args_effect : forall ps qs h h', native_args h ps qs = inl h' -> length h' = length h /\
  forall n c, nth_error h n = Some c -> nth_error h' n = Some (mkCell (ce_class c) (ce_live c && negb (takes ps qs n)) (ce_epoch c)).
Proof.
  assert (I : forall c, c = mkCell (ce_class c) (ce_live c && negb false) (ce_epoch c)).
  { intros [a b e]. cbn. rewrite andb_true_r. reflexivity. }
  induction ps as [|p ps IH]; intros [|q qs] h h' E; cbn [native_args] in E;
    try (injection E as <-; split; [reflexivity|]; intros n c H; rewrite H; apply f_equal; apply I).
  destruct (if class_eqb _ _ then _ else _); [discriminate|]. unfold takes. cbn [combine existsb]. fold (takes ps qs).
  destruct (pa_mode p) eqn:M.
  - destruct (native_borrow h q (pa_native p)); [discriminate|]. apply (IH _ _ _ E).
  - destruct (native_take h q (pa_native p)) as [h1|] eqn:T; [|discriminate]. destruct (IH _ _ _ E) as [L H].
    unfold native_take in T. destruct q as [x|]; [|discriminate]. destruct (nth_error h x) as [kx|] eqn:Ex; [|discriminate].
    destruct (negb (ce_live kx)); [discriminate|]. destruct (fits (ce_class kx) _); [|discriminate]. injection T as <-.
    split; [rewrite L; apply length_set_nth|]. intros n k Hn.
    specialize (H n). rewrite nth_set_nth in H. cbn [cell_of]. rewrite (Nat.eqb_sym x n). destruct (Nat.eqb_spec n x) as [E0|Ne]; [subst x|].
    + rewrite Hn in H. cbn in H. specialize (H _ eq_refl). cbn in H. rewrite H. cbn. rewrite andb_false_r. reflexivity.
    + specialize (H _ Hn). rewrite H. reflexivity.
  - destruct (native_take h q (pa_native p)) as [h1|] eqn:T; [|discriminate]. destruct (IH _ _ _ E) as [L H].
    unfold native_take in T. destruct q as [x|]; [|discriminate]. destruct (nth_error h x) as [kx|] eqn:Ex; [|discriminate].
    destruct (negb (ce_live kx)); [discriminate|]. destruct (fits (ce_class kx) _); [|discriminate]. injection T as <-.
    split; [rewrite L; apply length_set_nth|]. intros n k Hn.
    specialize (H n). rewrite nth_set_nth in H. cbn [cell_of]. rewrite (Nat.eqb_sym x n). destruct (Nat.eqb_spec n x) as [E0|Ne]; [subst x|].
    + rewrite Hn in H. cbn in H. specialize (H _ eq_refl). cbn in H. rewrite H. cbn. rewrite andb_false_r. reflexivity.
    + specialize (H _ Hn). rewrite H. reflexivity.
Qed.

(** A call that returns, with no finalizer running inside it, has exactly the
    documented effect: it empties and consumes the documented arguments and no other
    wrapper or box, may move the contents of the documented argument only, and returns
    a new box owned by a new wrapper, a view of the documented argument, or nothing. *)
Theorem C40_calls_have_exactly_the_documented_effect w m args moved w' :
  call w (sig m) args [] moved = Done w' ->
  let ef := documented m in
  (forall i r, nth_error (wrs w) i = Some r ->
     nth_error (wrs w') i = Some (if existsb (is_arg args i) (ef_empties ef) then null_inner r else r)) /\
  (forall n c, nth_error (heap w) n = Some c ->
     nth_error (heap w') n =
       Some (mkCell (ce_class c) (ce_live c && negb (existsb (points w args n) (ef_consumes ef)))
               (if moved && match ef_invalidates ef with Some k => points w args n k | None => false end
                then S (ce_epoch c) else ce_epoch c))) /\
  match ef_returns ef with
  | RNone => length (wrs w') = length (wrs w) /\ length (heap w') = length (heap w)
  | RNew c => wrs w' = firstn (length (wrs w)) (wrs w') ++ [mkWr c (Some (Whole (length (heap w)))) Owned] /\
              heap w' = firstn (length (heap w)) (heap w') ++ [mkCell c true 0]
  | RView k c o => length (heap w') = length (heap w) /\ exists n, points w args n k = true /\
      wrs w' = firstn (length (wrs w)) (wrs w') ++ [mkWr c (Some (Inside n (epoch_at (heap w') n) c)) o]
  end.
Proof.
  intros H. cbn zeta. unfold call in H. destruct (negb _); [discriminate|].
  destruct (eval_args w (me_params (sig m)) args) as [[w1 qs]|[? ?]|] eqn:E1; try discriminate. cbn [finalize] in H.
  destruct (native_args (heap w1) (me_params (sig m)) qs) as [h|] eqn:E2; [|discriminate].
  set (h' := match me_moves (sig m) with Some _ => _ | None => _ end) in H. injection H as <-.
  destruct (eval_args_effect _ _ _ _ _ E1) as (Hh & L1 & L2 & W & Q).
  rewrite Hh in E2. destruct (native_args_effect _ _ _ _ E2) as [Lh Hn].
  assert (LW : length (wrs w1) = length (wrs w)).
  { assert (forall i, nth_error (wrs w1) i = None <-> nth_error (wrs w) i = None) as N.
    { intros i. rewrite W. destruct (nth_error (wrs w) i); cbn; split; congruence. }
    apply Nat.le_antisymm; apply nth_error_None; apply N; apply nth_error_None; lia. }
  assert (PT : forall k q n, nth_error qs k = Some q -> points w args n k = (cell_of q =? n)).
  { intros k q n Hq. destruct (Q k q Hq) as (a & r & A & B & C). unfold points. rewrite A, B, C. reflexivity. }
  assert (TK : forall n, takes (me_params (sig m)) qs n = existsb (points w args n) (ef_consumes (documented m))).
  { intros n. unfold takes. destruct m; cbn [sig me_params length] in L2 |- *;
      (destruct qs as [|q0 [|q1 [|q2 [|? ?]]]]; try discriminate L2);
      cbn [combine existsb pa_mode lend steal documented ef_consumes]; rewrite ?orb_false_l, ?orb_false_r; try reflexivity;
      symmetry; try (apply (PT 0); reflexivity); try (apply (PT 1); reflexivity); try (apply (PT 2); reflexivity). }
  assert (ST : forall i, existsb (Nat.eqb i) (stolen (me_params (sig m)) args) = existsb (is_arg args i) (ef_empties (documented m))).
  { intros i. unfold stolen, is_arg. destruct m; cbn [sig me_params length] in L1 |- *;
      (destruct args as [|a0 [|a1 [|a2 [|? ?]]]]; try discriminate L1);
      cbn [combine filter pa_mode lend steal map snd existsb documented ef_empties nth_error]; rewrite ?orb_false_r; try reflexivity; apply Nat.eqb_sym. }
  assert (MV : me_moves (sig m) = ef_invalidates (documented m)) by (destruct m; reflexivity).
  assert (RE : me_result (sig m) = ef_returns (documented m)) by (destruct m; reflexivity).
  assert (Lh' : length h' = length h).
  { unfold h'. destruct (me_moves (sig m)); auto. destruct (nth_error qs n); auto. destruct moved; auto. apply length_set_nth. }
  assert (MK : forall k, ef_invalidates (documented m) = Some k -> nth_error qs k <> None).
  { intros k Ek. apply nth_error_Some. rewrite L2. destruct m; cbn in Ek |- *; try discriminate; injection Ek as <-; lia. }
  assert (Hh' : forall n c, nth_error (heap w) n = Some c -> nth_error h' n =
       Some (mkCell (ce_class c) (ce_live c && negb (existsb (points w args n) (ef_consumes (documented m))))
               (if moved && match ef_invalidates (documented m) with Some k => points w args n k | None => false end
                then S (ce_epoch c) else ce_epoch c))).
  { intros n c Ec. specialize (Hn n c Ec). rewrite TK in Hn. unfold h'. rewrite MV. destruct (ef_invalidates (documented m)) as [k|] eqn:Ek.
    - destruct (nth_error qs k) as [q|] eqn:Eq; [|exfalso; apply (MK k); auto]. rewrite (PT k q n Eq). destruct moved; cbn [andb]; [|exact Hn].
      unfold bump. rewrite nth_set_nth, Hn. rewrite (Nat.eqb_sym n). destruct (cell_of q =? n); reflexivity.
    - rewrite andb_false_r. exact Hn. }
  rewrite RE. clear RE.
  assert (FN : forall A (l : list A) n (x : A), length l = n -> l ++ [x] = firstn n (l ++ [x]) ++ [x]).
  { intros A l n x <-. rewrite firstn_app, Nat.sub_diag, firstn_all. cbn. rewrite app_nil_r. reflexivity. }
  split; [|split].
  - intros i r Er. assert (X : nth_error (wrs w1) i = Some (if existsb (is_arg args i) (ef_empties (documented m)) then null_inner r else r)).
    { rewrite W, Er, ST. reflexivity. }
    assert (Li : i < length (wrs w1)) by (apply nth_error_Some; congruence).
    unfold add_result. destruct (ef_returns (documented m)) as [|c|k c o]; cbn [wrs]; [exact X|rewrite nth_error_app1 by exact Li; exact X|].
    destruct (nth_error qs k); cbn [wrs]; [rewrite nth_error_app1 by exact Li; exact X|exact X].
  - intros n c Ec. specialize (Hh' n c Ec). assert (Ln : n < length h') by (apply nth_error_Some; congruence).
    unfold add_result. destruct (ef_returns (documented m)) as [|c'|k c' o]; cbn [heap]; [exact Hh'|rewrite nth_error_app1 by exact Ln; exact Hh'|].
    destruct (nth_error qs k); exact Hh'.
  - assert (RK : forall k c o, ef_returns (documented m) = RView k c o -> nth_error qs k <> None).
    { intros k c o Ek. apply nth_error_Some. rewrite L2. destruct m; cbn in Ek |- *; try discriminate; injection Ek as <-; lia. }
    unfold add_result. destruct (ef_returns (documented m)) as [|c|k c o]; cbn [wrs heap].
    + split; [exact LW|]. congruence.
    + rewrite Lh', Lh. split; apply FN; [exact LW|congruence].
    + destruct (nth_error qs k) as [q|] eqn:Eq; [|exfalso; apply (RK k c o); auto]. cbn [wrs heap]. split; [congruence|].
      exists (cell_of q). split; [rewrite (PT k q _ Eq); apply Nat.eqb_refl|]. apply FN; exact LW.
Qed.
Print Assumptions C40_calls_have_exactly_the_documented_effect.

(** Concrete: pushing a keyframe onto a vector that reallocates. *)
Example C40_documented_effect_example :
  let w := mkWorld [mkCell CVec true 0; mkCell CKeyframe true 0] [mkWr CVec (Some (Whole 0)) Owned; mkWr CKeyframe (Some (Whole 1)) Owned] in
  call w (sig VecPush) [0; 1] [] true =
    Done (mkWorld [mkCell CVec true 1; mkCell CKeyframe false 0] [mkWr CVec (Some (Whole 0)) Owned; mkWr CKeyframe None Owned]) /\
  call w (sig VecGet) [0] [] false =
    Done (mkWorld (heap w) (wrs w ++ [mkWr CKeyframe (Some (Inside 0 0 CKeyframe)) SharedRef])).
Proof. split; reflexivity. Qed.
