(** C13-C18: realms and the engine. *)
From Verif Require Import Engine BaselineProofs BaselineMono PropertiesDynamic.
Open Scope nat_scope.

(** ** C13 *)

(** Any history of public operations on a realm, without a panic. *)
Inductive rsteps : realm -> list rop -> realm -> Prop :=
| rsteps_nil r : rsteps r [] r
| rsteps_cons r op x r1 ops r2 :
    (forall k o, op = ROp k o -> bop_ok (realm_baseline r k) o) ->
    rstep r op = (x, r1) -> x <> Panic -> rsteps r1 ops r2 -> rsteps r (op :: ops) r2.

(** The operations of a history that were made on one baseline. *)
Definition kind_eqb (a b : baseline_kind) : bool :=
  match a, b with KMain, KMain | KFork, KFork => true | _, _ => false end.
Fixpoint on (k : baseline_kind) (ops : list rop) : list bop :=
  match ops with
  | [] => []
  | ROp k' o :: t => if kind_eqb k k' then o :: on k t else on k t
  | RSetTime _ :: t => on k t
  end.

(** Each baseline evolves by its own operations alone, whatever the
    interleaving. *)
Theorem C13_baselines_isolated :
  forall r ops r', rsteps r ops r' ->
    forall k, bsteps (realm_baseline r k) (on k ops) (realm_baseline r' k).
Proof.
  intros r ops r' H. induction H as [r|r op x r1 ops r2 Hok Hst Hnp H IH]; intros k; [constructor|].
  destruct op as [k' o|t]; cbn in Hst.
  - destruct (bstep (realm_baseline r k') o) as [x' b] eqn:E. injection Hst as <- <-.
    specialize (IH k). specialize (Hok k' o eq_refl).
    destruct k, k'; cbn in *; auto; econstructor; eauto.
  - injection Hst as <- <-. cbn. specialize (IH k). destruct k; exact IH.
Qed.
Print Assumptions C13_baselines_isolated.

(** In particular an operation on one baseline changes nothing in the other. *)
Theorem C13_other_baseline_untouched :
  forall r k op x r', rstep r (ROp k op) = (x, r') ->
    forall k', k' <> k -> realm_baseline r' k' = realm_baseline r k'.
Proof.
  intros r k op x r' H k' Hk. cbn in H. destruct (bstep (realm_baseline r k) op) as [x' b].
  injection H as <- <-. destruct k, k'; congruence || reflexivity.
Qed.
Print Assumptions C13_other_baseline_untouched.

(** And every interleaving of histories that are possible separately is possible
    together. *)
Theorem C13_interleavings_possible :
  forall ops r bm bf, bsteps (r_main r) (on KMain ops) bm -> bsteps (r_fork r) (on KFork ops) bf ->
    exists r', rsteps r ops r' /\ r_main r' = bm /\ r_fork r' = bf /\ r_id r' = r_id r.
Proof.
  induction ops as [|[k o|t] ops IH]; intros r bm bf Hm Hf; cbn in *.
  - inversion Hm; inversion Hf; subst. exists r. repeat split; constructor.
  - destruct k; cbn in *.
    + inversion Hm as [|b0 op0 x b1 l0 b2 Hok Hst Hnp Hrest]; subst.
      destruct (IH (realm_set_baseline r KMain b1) bm bf) as [r' [H1 [H2 [H3 H4]]]]; cbn; auto.
      exists r'. repeat split; auto. econstructor; eauto.
      * intros k o' E. injection E as <- <-. auto.
      * cbn. rewrite Hst. reflexivity.
    + inversion Hf as [|b0 op0 x b1 l0 b2 Hok Hst Hnp Hrest]; subst.
      destruct (IH (realm_set_baseline r KFork b1) bm bf) as [r' [H1 [H2 [H3 H4]]]]; cbn; auto.
      exists r'. repeat split; auto. econstructor; eauto.
      * intros k o' E. injection E as <- <-. auto.
      * cbn. rewrite Hst. reflexivity.
  - destruct (IH (realm_set_time r t) bm bf Hm Hf) as [r' [H1 [H2 [H3 H4]]]].
    exists r'. repeat split; auto. econstructor; eauto; [discriminate|reflexivity|discriminate].
Qed.
Print Assumptions C13_interleavings_possible.

Lemma bstep_kind b op r b' : binv b -> bop_ok b op -> bstep b op = (r, b') -> r <> Panic -> b_kind b' = b_kind b.
Proof. intros. eapply bm_kind, bstep_mono; eauto. Qed.

(** The baseline of each kind keeps its kind, over any history. *)
Theorem C13_kind_fixed :
  forall id ops r, rsteps (realm_new id) ops r -> forall k, b_kind (realm_baseline r k) = k.
Proof.
  intros id ops r H k. apply C13_baselines_isolated with (k := k) in H.
  apply bsteps_mono in H.
  - rewrite (bm_kind _ _ H). destruct k; reflexivity.
  - destruct k; apply binv_new.
Qed.
Print Assumptions C13_kind_fixed.

(** ** C14, C15, C17 *)

(** An assertion [h == d] holds of a baseline: [h] is live there and its value
    is equal (in the sense of its own type's [==]) to [d]. *)
Definition assertion_holds (b : baseline) (h : dyn_handle) (d : dynprop) : Prop :=
  exists v, state_get b (dh_type h) (dh_index h) = Ok v /\
    exists t (x y : rtype t), v = dyn_from t x /\ d = dyn_from t y /\ rtype_eqb t x y = true.

Definition action_holds (b : baseline) (a : action) : Prop :=
  match a with StateAssert h d => assertion_holds b h d | _ => True end.
Definition is_write (a : action) : Prop := exists h d, a = StateWrite h d.

(** The kind of an action says which of the four it is. *)
Theorem C14_kinds_tell_actions_apart :
  forall a,
    (kind a = KStateAssert <-> exists h d, a = StateAssert h d) /\
    (kind a = KStateWrite <-> is_write a) /\
    (kind a = KChannelAssert <-> exists h d, a = ChannelAssert h d) /\
    (kind a = KChannelWrite <-> exists h d, a = ChannelWrite h d).
Proof.
  intros [h d|h d|h d|h d]; cbn [kind]; unfold is_write; repeat split; intros; eauto;
    try discriminate; match goal with K : exists _, _ |- _ => destruct K as [? [? K]]; discriminate K end.
Qed.
Print Assumptions C14_kinds_tell_actions_apart.

Lemma apply_action_realm r a x r' a' : apply_action r a = (x, r', a') -> r' = r /\ a' = a.
Proof.
  unfold apply_action. destruct a as [h d|h d|h d|h d]; try (intros H; injection H as _ <- <-; auto);
    destruct (dyn_state_get _ h) as [v|e|]; try (intros H; injection H as _ <- <-; auto).
  destruct (ref_eqb _ _); intros H; injection H as _ <- <-; auto.
Qed.

Lemma apply_assert r h d :
  (assertion_holds (r_fork r) h d /\ apply_action r (StateAssert h d) = (Ok tt, r, StateAssert h d)) \/
  (~ assertion_holds (r_fork r) h d /\ exists e, apply_action r (StateAssert h d) = (Err e, r, StateAssert h d)).
Proof.
  unfold assertion_holds. cbn. unfold dyn_state_get.
  destruct (state_get (r_fork r) (dh_type h) (dh_index h)) as [v|e|] eqn:E.
  - rewrite C24_borrow_preserves_equality. destruct (dynprop_eqb v d) eqn:Eq.
    + left. split; auto. exists v. split; auto. apply C24_dyn_equals_dyn_iff. auto.
    + right. split; [|eauto]. intros [v' [Hv H]]. injection Hv as <-.
      apply C24_dyn_equals_dyn_iff in H. congruence.
  - right. split; [|eauto]. intros [v' [Hv _]]. discriminate.
  - unfold state_get, tm_get in E. destruct (b_states _ _); [destruct (get _ _)|]; discriminate.
Qed.

Lemma apply_write r h d :
  (st_at (r_fork r) (dh_type h) (dh_index h) <> None /\ apply_action r (StateWrite h d) = (Panic, r, StateWrite h d)) \/
  (st_at (r_fork r) (dh_type h) (dh_index h) = None /\
   apply_action r (StateWrite h d) = (Err EInvalidHandle, r, StateWrite h d)).
Proof.
  cbn. unfold dyn_state_get, st_at. destruct (state_get _ _ _) eqn:E; auto.
  - left. split; [discriminate|reflexivity].
  - unfold state_get, tm_get in E. destruct (b_states _ _); [destruct (get _ _)|]; discriminate.
Qed.

Lemma reverse_nowrite r l : Forall (fun a => ~ is_write a) l -> reverse_actions r l = (Ok l, r).
Proof.
  induction 1 as [|a l Ha Hl IH]; cbn; auto.
  destruct a as [h d|h d|h d|h d]; cbn; try (rewrite IH; reflexivity).
  exfalso. apply Ha. unfold is_write. eauto.
Qed.

Lemma reverse_write_panics r l h d r' x :
  In (StateWrite h d) l -> reverse_actions r l = (x, r') -> x = Panic /\ r' = r.
Proof.
  revert r r' x. induction l as [|a l IH]; cbn; intros r r' x Hin H; [destruct Hin|].
  destruct (reverse_action r a) as [[y r1] a1] eqn:E.
  assert (Hr1 : r1 = r /\ (y = Panic \/ (y = Ok tt /\ forall h d, a <> StateWrite h d))).
  { unfold reverse_action in E. destruct a as [h1 d1|h1 d1|h1 d1|h1 d1]; cbn [kind] in E.
    - injection E as <- <- <-. split; auto. right. split; auto. discriminate.
    - destruct (apply_write r h1 d1) as [[_ Ew]|[_ Ew]]; rewrite Ew in E; injection E as <- <- <-; auto.
    - injection E as <- <- <-. split; auto. right. split; auto. discriminate.
    - injection E as <- <- <-. split; auto. right. split; auto. discriminate. }
  destruct Hr1 as [-> [->|[-> Hnw]]]; [injection H as <- <-; auto|].
  destruct Hin as [->|Hin]; [exfalso; eapply Hnw; eauto|].
  destruct (reverse_actions r l) as [y2 r2] eqn:E2. destruct (IH _ _ _ Hin E2) as [-> ->].
  injection H as <- <-. auto.
Qed.

Lemma nowrite_dec a : {is_write a} + {~ is_write a}.
Proof. destruct a; [right|left|right|right]; unfold is_write; try (intros [? [? ?]]; discriminate). eauto. Qed.

(** The whole behaviour of the loop: look for the first action that is a write
    or a failing assertion. *)
Lemma apply_loop_spec r todo : forall done,
  Forall (fun a => ~ is_write a) done ->
  (Forall (fun a => ~ is_write a /\ action_holds (r_fork r) a) todo /\
     apply_loop r done todo = (Ok (Accepted (done ++ todo)), r)) \/
  (exists p a s, todo = p ++ a :: s /\ Forall (fun a => ~ is_write a /\ action_holds (r_fork r) a) p /\
     ((is_write a /\ apply_loop r done todo = (Panic, r)) \/
      (~ is_write a /\ ~ action_holds (r_fork r) a /\
       apply_loop r done todo = (Ok (Rejected (done ++ todo)), r)))).
Proof.
  induction todo as [|a t IH]; intros done Hd.
  - left. split; auto. cbn. rewrite app_nil_r. reflexivity.
  - assert (Hok : (~ is_write a /\ action_holds (r_fork r) a /\ apply_action r a = (Ok tt, r, a)) \/
                  (~ is_write a /\ ~ action_holds (r_fork r) a /\ exists e, apply_action r a = (Err e, r, a)) \/
                  (is_write a /\ (apply_action r a = (Panic, r, a) \/ exists e, apply_action r a = (Err e, r, a)))).
    { destruct (nowrite_dec a) as [Hw|Hw].
      - right. right. split; auto. destruct Hw as [h [d ->]]. destruct (apply_write r h d) as [[_ E]|[_ E]]; eauto.
      - destruct a as [h d|h d|h d|h d].
        + destruct (apply_assert r h d) as [[Ha E]|[Ha E]]; [left; auto|right; left; auto].
        + exfalso. apply Hw. unfold is_write. eauto.
        + left. cbn. auto.
        + left. cbn. auto. }
    destruct Hok as [[Hw [Ha E]]|[[Hw [Ha [e E]]]|[Hw E]]]; cbn [apply_loop].
    + rewrite E. destruct (IH (done ++ [a])) as [[H1 H2]|[p [b [s [Ht [Hp H]]]]]].
      { apply Forall_app. auto. }
      * left. split; auto. rewrite H2. rewrite <- app_assoc. reflexivity.
      * right. exists (a :: p), b, s. rewrite Ht. split; auto. split; auto. rewrite Ht in H.
        rewrite <- app_assoc in H. exact H.
    + rewrite E. right. exists [], a, t. split; auto. split; auto. right. split; auto. split; auto.
      rewrite reverse_nowrite.
      * rewrite rev_involutive, <- app_assoc. reflexivity.
      * apply Forall_rev. apply Forall_app. auto.
    + right. exists [], a, t. split; auto. split; auto. left. split; auto.
      destruct E as [E|[e E]]; rewrite E; auto.
      destruct (reverse_actions r (rev (done ++ [a]))) as [y r2] eqn:E2.
      destruct Hw as [h [d ->]].
      destruct (reverse_write_panics _ _ h d _ _ (proj1 (in_rev _ _) (in_or_app done [StateWrite h d] _ (or_intror (or_introl eq_refl)))) E2) as [-> ->].
      reflexivity.
Qed.

(** Neither a write before the end... *)
Theorem C14_accepted_iff_assertions_hold :
  forall r c, Forall (fun a => ~ is_write a) c ->
    (apply_collaction r c = (Ok (Accepted c), r) <->
     forall h d, In (StateAssert h d) c -> assertion_holds (r_fork r) h d) /\
    (apply_collaction r c = (Ok (Rejected c), r) <->
     exists h d, In (StateAssert h d) c /\ ~ assertion_holds (r_fork r) h d) /\
    (apply_collaction r c = (Ok (Accepted c), r) \/ apply_collaction r c = (Ok (Rejected c), r)).
Proof.
  intros r c Hw. unfold apply_collaction.
  destruct (apply_loop_spec r c [] (Forall_nil _)) as [[H1 H2]|[p [a [s [Hc [Hp [[Ha _]|[Ha [Hn H2]]]]]]]]]; cbn in *.
  - rewrite H2. rewrite Forall_forall in H1. split; [|split]; auto.
    + split; auto. intros _ h d Hin. apply (H1 _ Hin).
    + split; [discriminate|]. intros [h [d [Hin Hn]]]. exfalso. apply Hn. apply (H1 _ Hin).
  - exfalso. rewrite Forall_forall in Hw. apply (Hw a); auto. rewrite Hc. apply in_or_app. cbn. auto.
  - rewrite H2. assert (Hin : In a c) by (rewrite Hc; apply in_or_app; cbn; auto).
    destruct a as [h d|h d|h d|h d]; cbn in Hn; try tauto. split; [|split]; auto.
    + split; [discriminate|]. intros H. exfalso. apply Hn. apply H. auto.
    + split; auto. intros _. exists h, d. auto.
Qed.
Print Assumptions C14_accepted_iff_assertions_hold.

(** Through the queue: the two public entry points. *)
Theorem C14_try_apply :
  forall e c q, e_queue e = c :: q -> Forall (fun a => ~ is_write a) c ->
    forall f, f = try_apply \/ f = apply_timeout ->
    exists x, f e = (Ok (Received x), mkEngine (e_realm e) q (e_cap e) (e_senders e)) /\
      cresult_actions x = c /\
      (x = Accepted c <-> forall h d, In (StateAssert h d) c -> assertion_holds (r_fork (e_realm e)) h d).
Proof.
  intros e c q Hq Hw f Hf.
  destruct (C14_accepted_iff_assertions_hold (e_realm e) c Hw) as [H1 [H2 H3]].
  assert (Hfe : f e = match apply_collaction (e_realm e) c with
      | (Ok x, r) => (Ok (Received x), mkEngine r q (e_cap e) (e_senders e))
      | (_, r) => (Panic, mkEngine r q (e_cap e) (e_senders e)) end).
  { destruct Hf as [->| ->]; unfold try_apply, apply_timeout, apply_with, receive; rewrite Hq;
      unfold e_set_realm; cbn; destruct (apply_collaction (e_realm e) c) as [[]]; reflexivity. }
  destruct H3 as [H3|H3]; rewrite H3 in Hfe.
  - exists (Accepted c). split; auto. split; auto. rewrite <- H1. tauto.
  - exists (Rejected c). split; auto. split; auto. rewrite <- H1. rewrite H3. split; [discriminate|].
    intros H. discriminate.
Qed.
Print Assumptions C14_try_apply.

(** ** C15 *)
Theorem C15_no_writes_no_change :
  forall r c x r', Forall (fun a => ~ is_write a) c -> apply_collaction r c = (x, r') -> r' = r /\ x <> Panic.
Proof.
  intros r c x r' Hw H. destruct (C14_accepted_iff_assertions_hold r c Hw) as [_ [_ [E|E]]];
    rewrite E in H; injection H as <- <-; split; auto; discriminate.
Qed.
Print Assumptions C15_no_writes_no_change.

(** ** C17 *)

(** The claim as documented, for one collaction. *)
Definition write_takes_effect (r : realm) (c : collaction) : Prop :=
  exists x r', apply_collaction r c = (Ok x, r') /\
    (forall c', x = Accepted c' -> forall p h d s, c = p ++ StateWrite h d :: s ->
       (forall d', ~ In (StateWrite h d') s) ->
       state_get (r_fork r') (dh_type h) (dh_index h) = Ok d) /\
    (forall c', x = Rejected c' -> r' = r).

(** Exactly when the engine survives a collaction: a write that is reached
    always panics, whether or not its handle is live; a write that is not
    reached because an earlier assertion fails does not matter. *)
Theorem C17_reached_write_panics :
  forall r p h d s,
    Forall (fun a => ~ is_write a) p ->
    (forall h' d', In (StateAssert h' d') p -> assertion_holds (r_fork r) h' d') ->
    apply_collaction r (p ++ StateWrite h d :: s) = (Panic, r).
Proof.
  intros r p h d s Hp Ha. unfold apply_collaction.
  destruct (apply_loop_spec r (p ++ StateWrite h d :: s) [] (Forall_nil _))
    as [[H1 H2]|[p2 [a [s2 [Hc [Hp2 [[Hwa H2]|[Hwa [Hn H2]]]]]]]]]; auto.
  - exfalso. rewrite Forall_forall in H1. destruct (H1 (StateWrite h d)) as [Hw _]; [apply in_or_app; cbn; auto|].
    apply Hw. unfold is_write. eauto.
  - exfalso. destruct a as [h1 d1|h1 d1|h1 d1|h1 d1]; cbn in Hn; try tauto.
    (* the failing assertion must lie in [p] *)
    assert (Hin : In (StateAssert h1 d1) p).
    { clear - Hc Hp2 Hp. revert p2 Hp2 Hc. induction p as [|b p IH]; intros p2 Hp2 Hc.
      - destruct p2 as [|b2 p2]; cbn in Hc; [discriminate|]. injection Hc as <- _.
        inversion Hp2; subst. destruct H1 as [H1 _]. exfalso. apply H1. unfold is_write. eauto.
      - destruct p2 as [|b2 p2]; cbn in Hc; injection Hc as <- Hc.
        + left; auto.
        + right. inversion Hp; inversion Hp2; subst. eapply IH; eauto. }
    apply Hn. apply Ha. auto.
Qed.
Print Assumptions C17_reached_write_panics.

(** In general: a panic iff a write is reached. *)
Theorem C17_panics_iff_write_reached_partial :
  forall r c,
    (exists r', apply_collaction r c = (Panic, r')) <->
    exists p h d s, c = p ++ StateWrite h d :: s /\ Forall (fun a => ~ is_write a) p /\
      forall h' d', In (StateAssert h' d') p -> assertion_holds (r_fork r) h' d'.
Proof.
  intros r c. split.
  - intros [r' H]. unfold apply_collaction in H.
    destruct (apply_loop_spec r c [] (Forall_nil _)) as [[_ H2]|[p [a [s [Hc [Hp [[Hwa H2]|[Hwa [Hn H2]]]]]]]]];
      rewrite H2 in H; try discriminate.
    destruct Hwa as [h [d ->]]. exists p, h, d, s. split; auto. rewrite Forall_forall in Hp. split.
    + apply Forall_forall. intros a Ha. apply Hp. auto.
    + intros h' d' Hin. apply (Hp _ Hin).
  - intros [p [h [d [s [-> [Hp Ha]]]]]]. exists r. apply C17_reached_write_panics; auto.
Qed.
Print Assumptions C17_panics_iff_write_reached_partial.

(** When it does not panic, the realm is unchanged and the collaction comes back
    as it was: no write ever takes effect. *)
Theorem C17_never_takes_effect :
  forall r c x r', apply_collaction r c = (Ok x, r') -> r' = r /\ cresult_actions x = c.
Proof.
  intros r c x r' H. unfold apply_collaction in H.
  destruct (apply_loop_spec r c [] (Forall_nil _)) as [[_ H2]|[p [a [s [Hc [Hp [[Hwa H2]|[Hwa [Hn H2]]]]]]]]];
    rewrite H2 in H; try discriminate; injection H as <- <-; auto.
Qed.
Print Assumptions C17_never_takes_effect.

(** The documented claim is false for every realm: writing any value to any handle. *)
Theorem C17_write_takes_effect_refuted :
  forall r h d, ~ write_takes_effect r [StateWrite h d].
Proof.
  intros r h d [x [r' [H _]]].
  pose proof (C17_reached_write_panics r [] h d [] (Forall_nil _) (fun _ _ F => match F with end)) as E.
  cbn [app] in E. rewrite E in H. discriminate.
Qed.
Print Assumptions C17_write_takes_effect_refuted.

(** An accepted collaction therefore contains no state write at all. *)
Theorem C17_accepted_contains_no_write :
  forall r c c' r' h d, apply_collaction r c = (Ok (Accepted c'), r') -> ~ In (StateWrite h d) c.
Proof.
  intros r c c' r' h d H Hin. unfold apply_collaction in H.
  destruct (apply_loop_spec r c [] (Forall_nil _)) as [[H1 H2]|[p [a [s [Hc [Hp [[Hwa H2]|[Hwa [Hn H2]]]]]]]]];
    rewrite H2 in H; try discriminate.
  rewrite Forall_forall in H1. apply (H1 _ Hin). unfold is_write. eauto.
Qed.
Print Assumptions C17_accepted_contains_no_write.

(** ** C16 *)

(** What a trace says was enqueued / dequeued, in order, with the sender. *)
Definition enqueued (tr : list label) : list (nat * collaction) :=
  flat_map (fun l => match l with LSend t c => [(t, c)] | LHandoff t c => [(t, c)] | _ => [] end) tr.
Definition dequeued (tr : list label) : list (nat * collaction) :=
  flat_map (fun l => match l with LRecv t c => [(t, c)] | LHandoff t c => [(t, c)] | _ => [] end) tr.
Definition returned (tr : list label) : list cresult :=
  flat_map (fun l => match l with LReturn x => [x] | _ => [] end) tr.

Lemma flat_map_cons {A B} (f : A -> list B) x l : flat_map f (x :: l) = f x ++ flat_map f l.
Proof. reflexivity. Qed.

Lemma step_cap s l s' : step s l s' -> s_cap s' = s_cap s.
Proof. destruct 1; reflexivity. Qed.
Lemma steps_cap s tr s' : steps s tr s' -> s_cap s' = s_cap s.
Proof. induction 1; auto. rewrite IHsteps. eapply step_cap; eauto. Qed.

Lemma fifo_gen s tr s' : steps s tr s' -> s_queue s ++ enqueued tr = dequeued tr ++ s_queue s'.
Proof.
  induction 1 as [s|s l s1 tr s2 Hs H IH]; [cbn; rewrite app_nil_r; auto|].
  unfold enqueued, dequeued in *. rewrite !flat_map_cons.
  destruct Hs; cbn in *; auto.
  - rewrite <- IH, <- app_assoc. reflexivity.
  - rewrite H1. cbn. f_equal. exact IH.
  - rewrite H2. cbn. f_equal. exact IH.
Qed.

(** Everything enqueued is, in order, what was dequeued followed by what still
    waits: nothing lost, duplicated, reordered or invented, whatever the
    schedule, the number of senders and the capacity. *)
Theorem C16_fifo_exactly_once :
  forall r cap tr s, steps (sys_new r cap) tr s -> enqueued tr = dequeued tr ++ s_queue s.
Proof. intros r cap tr s H. apply fifo_gen in H. exact H. Qed.
Print Assumptions C16_fifo_exactly_once.

(** Hence each sender's collactions are applied in the order it sent them. *)
Theorem C16_per_sender_order :
  forall r cap tr s t, steps (sys_new r cap) tr s ->
    filter (fun p => Nat.eqb (fst p) t) (enqueued tr) =
    filter (fun p => Nat.eqb (fst p) t) (dequeued tr) ++ filter (fun p => Nat.eqb (fst p) t) (s_queue s).
Proof. intros r cap tr s t H. rewrite (C16_fifo_exactly_once _ _ _ _ H). apply filter_app. Qed.
Print Assumptions C16_per_sender_order.

(** A bounded queue never exceeds its capacity. *)
Theorem C16_bounded :
  forall r n tr s, steps (sys_new r (Some n)) tr s -> length (s_queue s) <= n.
Proof.
  intros r n tr s H.
  assert (G : forall s0, s_cap s0 = Some n -> length (s_queue s0) <= n -> steps s0 tr s -> length (s_queue s) <= n).
  { clear. intros s0 Hc Hl H. induction H as [s|s l s1 tr s2 Hs H IH]; auto.
    assert (Hc1 : s_cap s1 = Some n) by (erewrite step_cap; eauto). apply IH; auto.
    destruct Hs; cbn in *; auto; try lia.
    - rewrite app_length. cbn. destruct (Nat.le_gt_cases n (length (s_queue s))); [|lia].
      exfalso. apply H1. exists n. auto.
    - rewrite H1 in Hl. cbn in Hl. lia. }
  eapply G; [| |exact H]; cbn; auto; lia.
Qed.
Print Assumptions C16_bounded.

(** [try_send] reports Full exactly when it must, and a send is possible exactly
    when there is room. *)
Theorem C16_send_possible_iff_room :
  forall s tid c, s_senders s <> 0 ->
    ((exists s', step s (LSend tid c) s') <-> (forall n, s_cap s = Some n -> length (s_queue s) < n)) /\
    ((exists s', step s (LFull tid c) s') <-> (exists n, s_cap s = Some n /\ n <= length (s_queue s))).
Proof.
  intros s tid c Hs. split; split.
  - intros [s' H]. inversion H; subst. intros n Hn.
    destruct (Nat.le_gt_cases n (length (s_queue s))); [|lia]. exfalso. apply H5. exists n. auto.
  - intros H. eexists. apply step_send; auto. intros [n [Hn Hl]]. apply H in Hn. lia.
  - intros [s' H]. inversion H; subst. auto.
  - intros H. exists s. apply step_full; auto.
Qed.
Print Assumptions C16_send_possible_iff_room.

(** Running the machine to the end is [apply_collaction]. *)
Fixpoint mrun (n : nat) (r : realm) (m : mach) : realm * mach :=
  match n with O => (r, m) | S k => let '(r', m') := mstep r m in mrun k r' m' end.
Definition mresult (m : mach) : outcome cresult :=
  match m with MDone x => Ok x | _ => Panic end.

Lemma mrun_done n r x : mrun n r (MDone x) = (r, MDone x).
Proof. induction n; cbn; auto. Qed.
Lemma mrun_panic n r : mrun n r MPanic = (r, MPanic).
Proof. induction n; cbn; auto. Qed.

Lemma mrun_reverse l : forall r seen rest n, length l < n ->
  mrun n r (MReverse l seen rest) =
  match reverse_actions r l with
  | (Ok l', r') => (r', MDone (Rejected (rev (seen ++ l') ++ rest)))
  | (_, r') => (r', MPanic)
  end.
Proof.
  induction l as [|a l IH]; intros r seen rest n Hn; (destruct n as [|n]; [lia|]); cbn [mrun mstep reverse_actions].
  - rewrite mrun_done, app_nil_r. reflexivity.
  - destruct (reverse_action r a) as [[[u|e|] r1] a1]; try (rewrite mrun_panic; reflexivity).
    rewrite IH by (cbn in Hn; lia). destruct (reverse_actions r1 l) as [[l'|e|] r2]; auto.
    rewrite <- app_assoc. reflexivity.
Qed.

Lemma mrun_apply todo : forall r done n, length done + 2 * length todo + 3 <= n ->
  mrun n r (MApply done todo) =
  match apply_loop r done todo with
  | (Ok x, r') => (r', MDone x)
  | (_, r') => (r', MPanic)
  end.
Proof.
  induction todo as [|a t IH]; intros r done n Hn; (destruct n as [|n]; [lia|]); cbn [mrun mstep apply_loop].
  - rewrite mrun_done. reflexivity.
  - destruct (apply_action r a) as [[[u|e|] r1] a1].
    + rewrite IH by (rewrite app_length; cbn in *; lia). reflexivity.
    + rewrite mrun_reverse by (rewrite rev_length, app_length; cbn in *; lia).
      destruct (reverse_actions _ _) as [[l'|e'|] r2]; auto.
    + rewrite mrun_panic. reflexivity.
Qed.

(** The engine never gets stuck or runs forever inside [apply]: a bounded number
    of its own steps ends it. *)
Theorem C16_apply_terminates :
  forall r c, exists n r' m', mrun n r (MApply [] c) = (r', m') /\
    (m' = MPanic \/ exists x, m' = MDone x) /\
    match apply_collaction r c with
    | (Ok x, r2) => m' = MDone x /\ r' = r2
    | (_, r2) => m' = MPanic /\ r' = r2
    end.
Proof.
  intros r c. exists (2 * length c + 3).
  pose proof (mrun_apply c r [] (2 * length c + 3) ltac:(cbn; lia)) as H. unfold apply_collaction.
  destruct (apply_loop r [] c) as [[x|e|] r2]; eexists; eexists; (split; [exact H|]); eauto.
Qed.
Print Assumptions C16_apply_terminates.

(** *** Atomicity: senders running concurrently with an apply do not affect it. *)

(** The engine's own history, with applies as single steps. *)
Inductive eop : Type :=
| EApply (c : collaction) (x : cresult)
| ETick (t : ticks)
| ERealm (op : rop).
Inductive eruns : realm -> list eop -> realm -> Prop :=
| eruns_nil r : eruns r [] r
| eruns_apply r c x r1 l r2 :
    apply_collaction r c = (Ok x, r1) -> eruns r1 l r2 -> eruns r (EApply c x :: l) r2
| eruns_tick r t l r2 :
    eruns (realm_set_time r (ticks_add (r_time r) t)) l r2 -> eruns r (ETick t :: l) r2
| eruns_realm r op x r1 l r2 :
    rstep r op = (x, r1) -> x <> Panic -> eruns r1 l r2 -> eruns r (ERealm op :: l) r2.

Definition applied (l : list eop) : list (collaction * cresult) :=
  flat_map (fun o => match o with EApply c x => [(c, x)] | _ => [] end) l.
Definition eticks (l : list eop) : list ticks :=
  flat_map (fun o => match o with ETick t => [t] | _ => [] end) l.
Definition trticks (tr : list label) : list ticks :=
  flat_map (fun l => match l with LTick t => [t] | _ => [] end) tr.
Definition erops (l : list eop) : list rop :=
  flat_map (fun o => match o with ERealm t => [t] | _ => [] end) l.
Definition trrops (tr : list label) : list rop :=
  flat_map (fun l => match l with LRealm t => [t] | _ => [] end) tr.

Lemma eruns_app r l1 r1 l2 r2 : eruns r l1 r1 -> eruns r1 l2 r2 -> eruns r (l1 ++ l2) r2.
Proof. induction 1; cbn; intros; auto; econstructor; eauto. Qed.

Lemma mrun_add n k r m : mrun (n + k) r m = let '(r', m') := mrun n r m in mrun k r' m'.
Proof.
  revert r m. induction n as [|n IH]; intros r m; cbn; auto.
  destruct (mstep r m) as [r' m']. apply IH.
Qed.

Lemma mrun_reaches r c r' m n : mrun n r (MApply [] c) = (r', m) -> forall x, m = MDone x -> apply_collaction r c = (Ok x, r').
Proof.
  intros H x ->. pose proof (mrun_apply c r [] (n + (2 * length c + 3)) ltac:(cbn; lia)) as Hr.
  rewrite mrun_add, H, mrun_done in Hr. unfold apply_collaction.
  destruct (apply_loop r [] c) as [[y|e|] r2]; congruence.
Qed.

(** Invariant: what the idle engine has done so far, plus the apply in progress. *)
Definition explains (r0 : realm) (tr : list label) (s : sys) : Prop :=
  exists l r1, eruns r0 l r1 /\ eticks l = trticks tr /\ erops l = trrops tr /\
    map snd (applied l) = returned tr /\
    match s_phase s with
    | Idle => s_realm s = r1 /\ map fst (applied l) = map snd (dequeued tr)
    | Busy c m => (exists n, mrun n r1 (MApply [] c) = (s_realm s, m)) /\
                  map fst (applied l) ++ [c] = map snd (dequeued tr)
    end.

Lemma steps_snoc_ind (P : list label -> sys -> Prop) s0 :
  P [] s0 ->
  (forall tr s l s', steps s0 tr s -> P tr s -> step s l s' -> P (tr ++ [l]) s') ->
  forall tr s, steps s0 tr s -> P tr s.
Proof.
  intros H0 Hs tr s H.
  assert (G : forall pre s1, steps s0 pre s1 -> P pre s1 -> forall tr s, steps s1 tr s -> P (pre ++ tr) s).
  { clear tr s H. intros pre s1 Hpre Hp tr s H. revert pre Hpre Hp.
    induction H as [s|s l s1 tr s2 Hst H IH]; intros pre Hpre Hp; [rewrite app_nil_r; auto|].
    replace (pre ++ l :: tr) with ((pre ++ [l]) ++ tr) by (rewrite <- app_assoc; reflexivity).
    apply IH; [|eapply Hs; eauto].
    clear - Hpre Hst. induction Hpre; cbn; econstructor; eauto; constructor. }
  apply (G [] s0); auto. constructor.
Qed.

Lemma explains_inv r0 cap tr s : steps (sys_new r0 cap) tr s -> explains r0 tr s.
Proof.
  revert tr s. apply steps_snoc_ind.
  - exists [], r0. repeat split; constructor.
  - intros tr s lb s' _ [l [r1 [Hr [Ht [Ho [Hx Hp]]]]]] Hst.
    unfold explains, dequeued, returned, trticks, trrops in *.
    destruct Hst; cbn [s_phase s_realm]; rewrite ?flat_map_app; cbn [flat_map]; rewrite ?app_nil_r, ?map_app.
    + exists l, r1. repeat (split; auto).
    + exists l, r1. repeat (split; auto).
    + rewrite H in Hp. destruct Hp as [-> Hd]. exists l, r1. repeat (split; auto).
      * exists 0. reflexivity.
      * rewrite Hd. reflexivity.
    + rewrite H in Hp. destruct Hp as [-> Hd]. exists l, r1. repeat (split; auto).
      * exists 0. reflexivity.
      * rewrite Hd. reflexivity.
    + exists l, r1. repeat (split; auto).
    + rewrite H in Hp. destruct Hp as [[n Hn] Hd]. exists l, r1. repeat (split; auto).
      exists (n + 1). rewrite mrun_add, Hn. cbn. rewrite H2. reflexivity.
    + rewrite H in Hp. destruct Hp as [[n Hn] Hd].
      exists (l ++ [EApply c x]), (s_realm s). unfold eticks, erops, applied in *.
      rewrite !flat_map_app; cbn [flat_map]; rewrite ?app_nil_r, ?map_app. split.
      { eapply eruns_app; eauto. econstructor; [eapply mrun_reaches; eauto|constructor]. }
      repeat split; auto. rewrite Hx. reflexivity.
    + rewrite H in Hp. destruct Hp as [<- Hd].
      exists (l ++ [ETick t]). eexists. unfold eticks, erops, applied in *.
      rewrite !flat_map_app; cbn [flat_map]; rewrite ?app_nil_r, ?map_app. split.
      { eapply eruns_app; eauto. constructor. constructor. }
      repeat split; auto. rewrite Ht. reflexivity.
    + rewrite H in Hp. destruct Hp as [<- Hd].
      exists (l ++ [ERealm op]), r'. unfold eticks, erops, applied in *.
      rewrite !flat_map_app; cbn [flat_map]; rewrite ?app_nil_r, ?map_app. split.
      { eapply eruns_app; eauto. econstructor; eauto. constructor. }
      repeat split; auto. rewrite Ho. reflexivity.
    + exists l, r1. repeat (split; auto).
    + exists l, r1. repeat (split; auto).
Qed.

(** Whatever the senders do meanwhile, the engine behaves as if each apply were
    one atomic step: when it is idle, the realm is the result of a sequential
    history in which exactly the dequeued collactions were applied, in that
    order, with exactly the results returned, between the same ticks and realm
    operations. *)
Theorem C16_applies_are_atomic :
  forall r0 cap tr s, steps (sys_new r0 cap) tr s -> s_phase s = Idle ->
    exists l, eruns r0 l (s_realm s) /\
      map fst (applied l) = map snd (dequeued tr) /\
      map snd (applied l) = returned tr /\
      eticks l = trticks tr /\ erops l = trrops tr.
Proof.
  intros r0 cap tr s H Hi. apply explains_inv in H. destruct H as [l [r1 [Hr [Ht [Ho [Hx Hp]]]]]].
  rewrite Hi in Hp. destruct Hp as [-> Hd]. exists l. auto.
Qed.
Print Assumptions C16_applies_are_atomic.

(** When idle, one result has been returned per dequeued collaction, carrying
    that very collaction. *)
Theorem C16_one_result_per_collaction :
  forall r0 cap tr s, steps (sys_new r0 cap) tr s -> s_phase s = Idle ->
    map cresult_actions (returned tr) = map snd (dequeued tr).
Proof.
  intros r0 cap tr s H Hi. destruct (C16_applies_are_atomic _ _ _ _ H Hi) as [l [Hr [H1 [H2 _]]]].
  rewrite <- H1, <- H2. clear - Hr. induction Hr; cbn; auto.
  f_equal; auto. eapply C17_never_takes_effect; eauto.
Qed.
Print Assumptions C16_one_result_per_collaction.

(** What an apply with nothing to do reports. *)
Theorem C16_empty_and_disconnected :
  forall e f x, (f = try_apply /\ x = REmpty) \/ (f = apply_timeout /\ x = RTimeout) ->
    (e_queue e = [] -> f e = (Ok (RecvErr (if Nat.eqb (e_senders e) 0 then RDisconnected else x)), e)) /\
    (e_queue e <> [] -> forall y e', f e <> (Ok (RecvErr y), e')).
Proof.
  intros e f x Hf.
  assert (E : f e = apply_with x e) by (destruct Hf as [[-> ->]|[-> ->]]; reflexivity).
  rewrite E. unfold apply_with, receive. split.
  - intros ->. reflexivity.
  - intros Hq. destruct (e_queue e) as [|c q]; [congruence|]. cbn.
    intros y e'. destruct (apply_collaction (e_realm e) c) as [[]]; discriminate.
Qed.
Print Assumptions C16_empty_and_disconnected.

(** Collactions sent before every sender was dropped are still applied: a
    non-empty queue never reports an error, and an idle engine can always take
    the next one. *)
Theorem C16_drain_after_disconnect :
  forall s tid c q, s_phase s = Idle -> s_queue s = (tid, c) :: q ->
    (exists s', step s (LRecv tid c) s') /\ (forall e s', ~ step s (LNoRecv e) s').
Proof.
  intros s tid c q Hi Hq. split.
  - eexists. apply step_recv with (q := q); auto.
  - intros e s' H. inversion H; subst. congruence.
Qed.
Print Assumptions C16_drain_after_disconnect.

(** In every execution, an apply that finds nothing reports "disconnected" exactly
    when every sender (the first, plus each clone) has been dropped, and at that
    point everything that was sent has been taken. *)
Definition is_clone (l : label) : bool := match l with LClone => true | _ => false end.
Definition is_drop (l : label) : bool := match l with LDrop => true | _ => false end.
Lemma senders_count tr : forall s0 s, steps s0 tr s ->
  s_senders s + length (filter is_drop tr) = s_senders s0 + length (filter is_clone tr).
Proof.
  intros s0 s H. induction H as [s|s l s1 tr s2 Hs H IH]; auto.
  destruct Hs; cbn [filter is_drop is_clone length s_senders] in *; try lia.
Qed.
Theorem C16_disconnected_iff_every_sender_dropped :
  forall r cap tr s e s', steps (sys_new r cap) tr s -> step s (LNoRecv e) s' ->
    (e = RDisconnected <-> length (filter is_drop tr) = 1 + length (filter is_clone tr)) /\
    enqueued tr = dequeued tr.
Proof.
  intros r cap tr s e s' H Hs.
  assert (G : s_queue s = [] /\ (e = RDisconnected <-> s_senders s = 0)) by (inversion Hs; subst; auto).
  destruct G as [Hq He].
  pose proof (senders_count _ _ _ H) as N. cbn [s_senders sys_new] in N.
  split; [|rewrite (C16_fifo_exactly_once _ _ _ _ H), Hq; apply app_nil_r].
  rewrite He. split; intros; lia.
Qed.
Print Assumptions C16_disconnected_iff_every_sender_dropped.
Example disconnected_example :
  exists s s', steps (sys_new (realm_new Coq.Strings.String.EmptyString) None) [LClone; LSend 0 []; LDrop; LRecv 0 []; LWork; LReturn (Accepted []); LDrop] s /\
    step s (LNoRecv RDisconnected) s'.
Proof.
  eexists _, _. split.
  - eapply steps_cons; [apply step_clone; discriminate|].
    eapply steps_cons; [apply step_send; [discriminate|intros [n [E _]]; discriminate]|].
    eapply steps_cons; [eapply step_drop; reflexivity|].
    eapply steps_cons; [eapply step_recv; reflexivity|].
    eapply steps_cons; [eapply step_work; [reflexivity|discriminate|discriminate|reflexivity]|].
    eapply steps_cons; [eapply step_return; reflexivity|].
    eapply steps_cons; [eapply step_drop; reflexivity|]. apply steps_nil.
  - apply step_norecv; cbn; try reflexivity. split; reflexivity.
Qed.

(** The engine API refines this: [try_apply] on a queue is a receive followed by
    the machine's run. *)
Theorem C16_api_matches_schedule :
  forall e c q, e_queue e = c :: q ->
    forall s, s_realm s = e_realm e -> map snd (s_queue s) = e_queue e -> s_phase s = Idle ->
    forall x e', try_apply e = (Ok (Received x), e') ->
    exists tid tr s', steps s (LRecv tid c :: tr ++ [LReturn x]) s' /\ Forall (eq LWork) tr /\
      s_realm s' = e_realm e' /\ map snd (s_queue s') = e_queue e' /\ s_phase s' = Idle.
Proof.
  intros e c q Hq s Hr Hqs Hi x e' H. rewrite Hq in Hqs.
  destruct (s_queue s) as [|[tid c0] q0] eqn:Eq; [discriminate|]. injection Hqs as <- Hq0.
  unfold try_apply, apply_with, receive in H. rewrite Hq in H. cbn in H.
  destruct (apply_collaction (e_realm e) c0) as [[y|y|] r2] eqn:E; try discriminate. injection H as -> <-.
  unfold apply_collaction in E. pose proof (mrun_apply c0 (e_realm e) [] (2 * length c0 + 3) ltac:(cbn; lia)) as Hm.
  rewrite E in Hm. generalize dependent (2 * length c0 + 3). intros n Hm. exists tid.
  assert (G : forall n r m s1, s_phase s1 = Busy c0 m -> s_realm s1 = r -> mrun n r m = (r2, MDone x) ->
     exists tr s', steps s1 (tr ++ [LReturn x]) s' /\ Forall (eq LWork) tr /\ s_realm s' = r2 /\
       s_queue s' = s_queue s1 /\ s_phase s' = Idle).
  { clear. induction n as [|n IH]; intros r m s1 Hp Hr Hm.
    - cbn in Hm. injection Hm as -> ->. exists []. eexists. split; [|split; [constructor|]].
      + cbn. econstructor; [eapply step_return; eauto|constructor].
      + cbn. auto.
    - cbn in Hm. destruct (mstep r m) as [r' m'] eqn:Em.
      assert (D : (exists y, m = MDone y) \/ m = MPanic \/ ((forall y, m <> MDone y) /\ m <> MPanic)).
      { destruct m; eauto; right; right; split; intros; discriminate. }
      destruct D as [[y ->]|[->|[D1 D2]]].
      + cbn in Em. injection Em as <- <-. apply (IH r (MDone y) s1); auto.
      + cbn in Em. injection Em as <- <-. rewrite mrun_panic in Hm. discriminate.
      + destruct (IH r' m' (mkSys r' (s_queue s1) (s_cap s1) (s_senders s1) (Busy c0 m')) eq_refl eq_refl Hm)
          as [tr [s' [H1 [H2 [H3 [H4 H5]]]]]].
        exists (LWork :: tr), s'. split; [|split; auto].
        cbn. econstructor; [|exact H1]. eapply step_work; eauto. rewrite Hr. auto. }
  destruct (G n (e_realm e) (MApply [] c0) (mkSys (s_realm s) q0 (s_cap s) (s_senders s) (Busy c0 (MApply [] c0))))
    as [tr [s' [H1 [H2 [H3 [H4 H5]]]]]]; auto.
  exists tr, s'. split; [econstructor; [eapply step_recv; eauto|exact H1]|]. split; auto. split; auto.
  cbn in *. split; auto. rewrite H4. auto.
Qed.
Print Assumptions C16_api_matches_schedule.

(** And the other way round: what the engine's own functions do, sequentially, is a run of
    this system, from the engine [new] returns on. *)
Definition view (s : sys) : engine := mkEngine (s_realm s) (map snd (s_queue s)) (s_cap s) (s_senders s).
Theorem C16_engine_is_the_system_when_idle :
  (forall r cap, view (sys_new r cap) = engine_new r cap /\ s_phase (sys_new r cap) = Idle) /\
  forall s, s_phase s = Idle ->
    (forall tid c e', s_senders s <> 0 -> send (view s) c = Some e' ->
       exists s', step s (LSend tid c) s' /\ view s' = e' /\ s_phase s' = Idle) /\
    (forall tid c, s_senders s <> 0 -> send (view s) c = None -> step s (LFull tid c) s) /\
    (forall t, exists s', step s (LTick t) s' /\ view s' = tick (view s) t /\ s_phase s' = Idle) /\
    (forall x e', try_apply (view s) = (Ok (RecvErr x), e') \/ apply_timeout (view s) = (Ok (RecvErr x), e') ->
       step s (LNoRecv x) s /\ e' = view s).
Proof.
  split; [intros r cap; split; reflexivity|]. intros s Hi.
  assert (FL : queue_full (view s) = true <-> s_full s).
  { unfold queue_full, s_full, view. cbn [e_cap e_queue]. destruct (s_cap s) as [n|]; rewrite ?map_length.
    - rewrite Nat.leb_le. split; [intros L; exists n; auto|]. intros [m [E L]]. injection E as <-. exact L.
    - split; [discriminate|]. intros [n [E _]]. discriminate E. }
  split; [|split; [|split]].
  - intros tid c e' N E. unfold send in E. destruct (queue_full (view s)) eqn:Q; [discriminate E|]. injection E as <-.
    eexists. split; [apply step_send; [exact N|intros F; apply FL in F; congruence]|].
    unfold view. cbn [s_realm s_queue s_cap s_senders s_phase e_realm e_queue e_cap e_senders]. rewrite map_app. split; [reflexivity|exact Hi].
  - intros tid c N E. unfold send in E. destruct (queue_full (view s)) eqn:Q; [|discriminate E]. apply step_full; [exact N|]. apply FL. reflexivity.
  - intros t. eexists. split; [apply step_tick; exact Hi|]. split; reflexivity.
  - intros x e' [E|E]; unfold try_apply, apply_timeout, apply_with, receive, view in E; cbn [e_queue e_realm e_cap e_senders] in E;
      destruct (s_queue s) as [|[t c] q] eqn:Q; cbn [map snd] in E;
      try (match type of E with context [apply_collaction ?a ?b] => destruct (apply_collaction a b) as [[] ?] end; discriminate E);
      injection E as <- <-; (split; [|unfold view; rewrite Q; reflexivity]); apply step_norecv; auto;
      destruct (Nat.eqb_spec (s_senders s) 0) as [Z0|Z0]; split; intros; try congruence.
Qed.
Print Assumptions C16_engine_is_the_system_when_idle.

(** A channel of capacity 0 holds nothing: every collaction is handed over, and an idle engine
    can always take one as long as a sender is left; with another capacity none is. *)
Definition is_send (l : label) : bool := match l with LSend _ _ => true | _ => false end.
Definition is_handoff (l : label) : bool := match l with LHandoff _ _ => true | _ => false end.
Theorem C16_capacity_zero_is_a_rendezvous :
  forall r cap tr s, steps (sys_new r cap) tr s ->
    (cap = Some 0 -> existsb is_send tr = false /\ s_queue s = [] /\
       (s_phase s = Idle -> s_senders s <> 0 -> forall tid c, exists s', step s (LHandoff tid c) s' /\ s_phase s' = Busy c (MApply [] c))) /\
    (cap <> Some 0 -> existsb is_handoff tr = false).
Proof.
  intros r cap tr s H.
  assert (C : s_cap s = cap) by (change cap with (s_cap (sys_new r cap)); clear - H; induction H as [s|s l s1 tr s2 Hs H IH]; [reflexivity|]; rewrite IH; eapply step_cap; eauto).
  split.
  - intros E. rewrite E in *. pose proof (C16_bounded _ _ _ _ H) as B. assert (Q : s_queue s = []) by (destruct (s_queue s); [reflexivity|cbn in B; lia]).
    split; [|split; [exact Q|]].
    + assert (G : forall s0, s_cap s0 = Some 0 -> steps s0 tr s -> existsb is_send tr = false).
      { clear. intros s0 Hc H. induction H as [s|s l s1 tr s2 Hs H IH]; [reflexivity|]. cbn [existsb].
        rewrite IH by (rewrite <- Hc; eapply step_cap; eauto). rewrite Bool.orb_false_r.
        destruct Hs as [s tid c N F| | | | | | | | | |]; try reflexivity. exfalso. apply F. exists 0. split; [exact Hc|lia]. }
      exact (G (sys_new r (Some 0)) eq_refl H).
    + intros Hi N tid c. eexists. split; [apply step_handoff; auto|reflexivity].
  - intros E. assert (G : forall s0, s_cap s0 <> Some 0 -> steps s0 tr s -> existsb is_handoff tr = false).
    { clear. intros s0 Hc H. induction H as [s|s l s1 tr s2 Hs H IH]; [reflexivity|]. cbn [existsb].
      rewrite IH by (intros X; apply Hc; rewrite <- X; symmetry; eapply step_cap; eauto). rewrite Bool.orb_false_r.
      destruct Hs; try reflexivity. congruence. }
    exact (G (sys_new r cap) E H).
Qed.
Print Assumptions C16_capacity_zero_is_a_rendezvous.
Example rendezvous_example :
  exists s, steps (sys_new (realm_new Coq.Strings.String.EmptyString) (Some 0)) [LFull 0 []; LHandoff 0 []; LWork; LReturn (Accepted [])] s.
Proof.
  eexists. eapply steps_cons; [apply step_full; [discriminate|exists 0; cbn; auto]|].
  eapply steps_cons; [apply step_handoff; [reflexivity|reflexivity|reflexivity|discriminate]|].
  eapply steps_cons; [eapply step_work; [reflexivity|discriminate|discriminate|reflexivity]|].
  eapply steps_cons; [eapply step_return; reflexivity|]. apply steps_nil.
Qed.

(** ** C18 *)
Open Scope Z_scope.
Definition in_i32 (z : Z) : Prop := i32_min <= z <= i32_max.
Definition sat (z : Z) : Z := Z.max (-2147483648) (Z.min 2147483647 z).

(** Left-to-right saturating sum. *)
Fixpoint sat_sum (t : Z) (l : list Z) : Z :=
  match l with [] => t | x :: l' => sat_sum (sat (t + x)) l' end.

Lemma eruns_time r l r' : eruns r l r' -> (forall op, In op (erops l) -> forall t, op <> RSetTime t) ->
  r_time r' = sat_sum (r_time r) (eticks l).
Proof.
  induction 1; cbn; intros Hn; auto.
  - rewrite IHeruns; auto. apply C17_never_takes_effect in H. destruct H as [-> _]. auto.
  - rewrite IHeruns by (intros; apply Hn; cbn; auto).
    destruct op as [k o|t].
    + cbn in H. destruct (bstep _ o). injection H as <- <-. destruct k; auto.
    + exfalso. eapply Hn; [left; reflexivity|reflexivity].
Qed.

(** Over every schedule (unless the client overwrites it through [time_mut]). *)
Theorem C18_time_is_saturating_sum :
  forall r0 cap tr s, steps (sys_new r0 cap) tr s -> s_phase s = Idle ->
    (forall t, ~ In (RSetTime t) (trrops tr)) ->
    r_time (s_realm s) = sat_sum (r_time r0) (trticks tr).
Proof.
  intros r0 cap tr s H Hi Hn. destruct (C16_applies_are_atomic _ _ _ _ H Hi) as [l [Hr [_ [_ [<- Ho]]]]].
  apply eruns_time; auto. rewrite Ho. intros op Hin t ->. eapply Hn; eauto.
Qed.
Print Assumptions C18_time_is_saturating_sum.

Lemma sat_in z : in_i32 (sat z). Proof. unfold in_i32, sat, i32_min, i32_max. lia. Qed.
Lemma sat_id z : in_i32 z -> sat z = z. Proof. unfold in_i32, sat, i32_min, i32_max. lia. Qed.

(** It stays in range, is the exact sum while no partial sum leaves the range,
    and for non-negative ticks it is the exact sum capped at the maximum. *)
Theorem C18_exact_while_in_range :
  forall l t, (forall n, in_i32 (t + fold_left Z.add (firstn n l) 0)) ->
    sat_sum t l = t + fold_left Z.add l 0.
Proof.
  assert (F : forall l a, fold_left Z.add l a = a + fold_left Z.add l 0).
  { induction l as [|x l IH]; intros a; cbn; [lia|]. rewrite (IH (a + x)), (IH x). lia. }
  induction l as [|x l IH]; intros t H; cbn; [lia|].
  assert (H1 : in_i32 (t + x)).
  { specialize (H 1%nat). cbn in H. exact H. }
  rewrite (sat_id _ H1), IH.
  - rewrite (F l x). lia.
  - intros n. specialize (H (S n)). cbn in H. rewrite F in H. rewrite Z.add_assoc in H. exact H.
Qed.
Print Assumptions C18_exact_while_in_range.

Theorem C18_never_decreases :
  forall l t, in_i32 t -> Forall (fun x => 0 <= x) l ->
    sat_sum t l = Z.min i32_max (t + fold_left Z.add l 0) /\ t <= sat_sum t l.
Proof.
  assert (F : forall l a, fold_left Z.add l a = a + fold_left Z.add l 0).
  { induction l as [|x l IH]; intros a; cbn; [lia|]. rewrite (IH (a + x)), (IH x). lia. }
  assert (P : forall l, Forall (fun x => 0 <= x) l -> 0 <= fold_left Z.add l 0).
  { induction 1; cbn; [lia|]. rewrite F. lia. }
  induction l as [|x l IH]; intros t Ht Hl; cbn.
  - unfold in_i32 in *. lia.
  - inversion Hl; subst. destruct (IH (sat (t + x)) (sat_in _) H2) as [E L]. rewrite E.
    rewrite (F l x). pose proof (P l H2). unfold sat, in_i32, i32_min, i32_max in *. lia.
Qed.
Print Assumptions C18_never_decreases.

Theorem C18_always_in_range :
  forall l t, in_i32 t -> in_i32 (sat_sum t l).
Proof.
  induction l as [|x l IH]; intros t Ht; cbn; auto. apply IH. apply sat_in.
Qed.
Print Assumptions C18_always_in_range.

(** Once saturated, later negative ticks do not undo the loss: the sum is not
    the clamped exact sum in general. *)
Theorem C18_clamped_total_refuted :
  exists l t, in_i32 t /\ Forall in_i32 l /\ sat_sum t l <> sat (t + fold_left Z.add l 0).
Proof.
  exists [2147483647; 1; -1], 0. unfold in_i32, i32_min, i32_max. split; [lia|]. split.
  - repeat constructor; lia.
  - vm_compute. discriminate.
Qed.
Print Assumptions C18_clamped_total_refuted.

(** ** Non-vacuity and cross-baseline handles *)
Open Scope nat_scope.
Definition exCt : contract_ty :=
  mkCty (mkCid Coq.Strings.String.EmptyString (1%N, 0%N, 0%N)) [TPrim TU8; TPrim TU8] [] [] [].
Definition exOps : list rop :=
  [ROp KFork (BRegister exCt); ROp KMain (BRegister exCt);
   ROp KFork (BCreate (mkCinst exCt (mkIndex 0 0%N)) [PPrim (VU8 7); PPrim (VU8 9)] []);
   ROp KMain (BCreate (mkCinst exCt (mkIndex 0 0%N)) [PPrim (VU8 1); PPrim (VU8 2)] [])].
Definition exRealm : realm :=
  fold_left (fun r op => snd (rstep r op)) exOps (realm_new Coq.Strings.String.EmptyString).
Definition rrun (r : realm) (ops : list rop) : realm := fold_left (fun r op => snd (rstep r op)) ops r.
Fixpoint no_panic (r : realm) (ops : list rop) : bool :=
  match ops with [] => true | op :: t => negb (is_panic (fst (rstep r op))) && no_panic (snd (rstep r op)) t end.
Lemma rrun_rsteps ops : forall r,
  (forall k o, In (ROp k o) ops -> forall b, bop_ok b o) -> no_panic r ops = true -> rsteps r ops (rrun r ops).
Proof.
  induction ops as [|op ops IH]; intros r Hok Hn; [constructor|]. cbn [no_panic] in Hn.
  apply andb_prop in Hn. destruct Hn as [Hn1 Hn2].
  econstructor; [|apply surjective_pairing| |apply IH; auto].
  - intros k o ->. apply (Hok k). cbn; auto.
  - intros E. rewrite E in Hn1. discriminate.
  - intros k o Hin. apply (Hok k). cbn; auto.
Qed.
Example exRealm_reached : rsteps (realm_new Coq.Strings.String.EmptyString) exOps exRealm.
Proof.
  apply rrun_rsteps; [|vm_compute; reflexivity].
  intros k o Hin b. cbn in Hin. destruct Hin as [E|[E|[E|[E|[]]]]]; injection E as <- <-; cbn; auto.
Qed.
Definition exH0 : dyn_handle := mkDh (TPrim TU8) (mkIndex 0 0%N).
Definition exH1 : dyn_handle := mkDh (TPrim TU8) (mkIndex 1 0%N).
Example exAccepted :
  let c := [StateAssert exH0 (PPrim (VU8 7)); ChannelWrite exH0 (PPrim (VU8 7)); StateAssert exH1 (PPrim (VU8 9))] in
  Forall (fun a => ~ is_write a) c /\ fst (apply_collaction exRealm c) = Ok (Accepted c).
Proof.
  split; [|vm_compute; reflexivity]. repeat constructor; intros [? [? ?]]; discriminate.
Qed.
Example exRejected :
  let c := [StateAssert exH0 (PPrim (VU8 7)); StateAssert exH1 (PPrim (VU8 8)); StateWrite exH1 (PPrim (VU8 8))] in
  fst (apply_collaction exRealm c) = Ok (Rejected c).
Proof. vm_compute. reflexivity. Qed.
Example exPanics :
  fst (apply_collaction exRealm [StateAssert exH0 (PPrim (VU8 7)); StateWrite exH1 (PPrim (VU8 8))]) = Panic.
Proof. vm_compute. reflexivity. Qed.

(** Two senders, a send in the middle of an apply, a full queue, a tick. *)
Example exTrace :
  let c1 := [ChannelAssert exH0 (PPrim (VU8 7))] in
  let c2 := [StateAssert exH0 (PPrim (VU8 6))] in
  exists s, steps (sys_new (realm_new Coq.Strings.String.EmptyString) (Some 1))
    [LClone; LSend 1 c1; LFull 2 c2; LRecv 1 c1; LSend 2 c2; LWork; LWork; LReturn (Accepted c1);
     LTick 5%Z; LRecv 2 c2; LWork; LDrop; LWork; LDrop; LWork; LReturn (Rejected c2); LNoRecv RDisconnected] s
    /\ s_phase s = Idle /\ s_queue s = [] /\ r_time (s_realm s) = 5%Z.
Proof.
  eexists. split; [|split; [|split]].
  - econstructor; [apply step_clone; discriminate|]; cbn [s_realm s_queue s_cap s_senders s_phase app sys_new].
    econstructor; [apply step_send; [discriminate|intros [n [E L]]; cbn in *; injection E as <-; lia]|]; cbn [s_realm s_queue s_cap s_senders s_phase app sys_new].
    econstructor; [apply step_full; [discriminate|exists 1; cbn; auto]|]; cbn [s_realm s_queue s_cap s_senders s_phase app sys_new].
    econstructor; [eapply step_recv; reflexivity|]; cbn [s_realm s_queue s_cap s_senders s_phase app sys_new].
    econstructor; [apply step_send; [discriminate|intros [n [E L]]; cbn in *; injection E as <-; lia]|]; cbn [s_realm s_queue s_cap s_senders s_phase app sys_new].
    econstructor; [eapply step_work; [reflexivity|discriminate|discriminate|vm_compute; reflexivity]|]; cbn [s_realm s_queue s_cap s_senders s_phase app sys_new].
    econstructor; [eapply step_work; [reflexivity|discriminate|discriminate|vm_compute; reflexivity]|]; cbn [s_realm s_queue s_cap s_senders s_phase app sys_new].
    econstructor; [eapply step_return; reflexivity|]; cbn [s_realm s_queue s_cap s_senders s_phase app sys_new].
    econstructor; [eapply step_tick; reflexivity|]; cbn [s_realm s_queue s_cap s_senders s_phase app sys_new].
    econstructor; [eapply step_recv; reflexivity|]; cbn [s_realm s_queue s_cap s_senders s_phase app sys_new].
    econstructor; [eapply step_work; [reflexivity|discriminate|discriminate|vm_compute; reflexivity]|]; cbn [s_realm s_queue s_cap s_senders s_phase app sys_new].
    econstructor; [eapply step_drop; reflexivity|]; cbn [s_realm s_queue s_cap s_senders s_phase app sys_new].
    econstructor; [eapply step_work; [reflexivity|discriminate|discriminate|vm_compute; reflexivity]|]; cbn [s_realm s_queue s_cap s_senders s_phase app sys_new].
    econstructor; [eapply step_drop; reflexivity|]; cbn [s_realm s_queue s_cap s_senders s_phase app sys_new].
    econstructor; [eapply step_work; [reflexivity|discriminate|discriminate|vm_compute; reflexivity]|]; cbn [s_realm s_queue s_cap s_senders s_phase app sys_new].
    econstructor; [eapply step_return; reflexivity|]; cbn [s_realm s_queue s_cap s_senders s_phase app sys_new].
    econstructor; [eapply step_norecv; [reflexivity|reflexivity|split; reflexivity]|]; cbn [s_realm s_queue s_cap s_senders s_phase app sys_new].
    constructor.
  - reflexivity.
  - reflexivity.
  - vm_compute. reflexivity.
Qed.

(** ** C36: handles are not tied to the baseline that issued them. *)

(** The claim: a state handle obtained from one baseline of a realm is rejected
    by the other. *)
Theorem C36_foreign_handle_accepted_refuted :
  exists r h v v', (exists id ops, rsteps (realm_new id) ops r) /\
    state_get (r_main r) (TPrim TU8) h = Ok v /\ state_get (r_fork r) (TPrim TU8) h = Ok v' /\ v <> v'.
Proof.
  exists exRealm, (mkIndex 0 0%N), (PPrim (VU8 1)), (PPrim (VU8 7)).
  split; [eexists; eexists; apply exRealm_reached|]. split; [vm_compute; reflexivity|].
  split; [vm_compute; reflexivity|discriminate].
Qed.
Print Assumptions C36_foreign_handle_accepted_refuted.

(** In fact the handles a baseline issues depend only on its history of
    operations, so two baselines with the same history issue the same handles:
    the n-th operation returns the same value in both, up to the kind. *)
Definition same_but_kind (a b : baseline) : Prop :=
  b_objects a = b_objects b /\ b_contracts a = b_contracts b /\
  b_states a = b_states b /\ b_channels a = b_channels b.

Lemma same_but_kind_eq a b : same_but_kind a b <-> exists k, b = mkBaseline k (b_objects a) (b_contracts a) (b_states a) (b_channels a).
Proof.
  unfold same_but_kind. split.
  - intros [H1 [H2 [H3 H4]]]. exists (b_kind b). destruct b; cbn in *; congruence.
  - intros [k ->]. auto.
Qed.

Definition rekind (k : baseline_kind) (b : baseline) : baseline :=
  mkBaseline k (b_objects b) (b_contracts b) (b_states b) (b_channels b).
Definition lift2 {A} k (p : outcome A * baseline) : outcome A * baseline := (fst p, rekind k (snd p)).

Lemma state_create_rk k b v : state_create (rekind k b) v = lift2 k (state_create b v).
Proof. unfold state_create. cbn. destruct (insert _ v) as [[a h]|e|]; reflexivity. Qed.
Lemma channel_create_rk k b v : channel_create (rekind k b) v = lift2 k (channel_create b v).
Proof. unfold channel_create. cbn. destruct (insert _ v) as [[a h]|e|]; reflexivity. Qed.
Lemma states_create_rk k vs : forall b, states_create (rekind k b) vs = lift2 k (states_create b vs).
Proof.
  induction vs as [|v vs IH]; intros b; cbn; auto. rewrite state_create_rk.
  destruct (state_create b v) as [[h|e|] b1]; cbn; auto. rewrite IH.
  destruct (states_create b1 vs) as [[hs|e|] b2]; reflexivity.
Qed.
Lemma channels_create_rk k vs : forall b, channels_create (rekind k b) vs = lift2 k (channels_create b vs).
Proof.
  induction vs as [|v vs IH]; intros b; cbn; auto. rewrite channel_create_rk.
  destruct (channel_create b v) as [[h|e|] b1]; cbn; auto. rewrite IH.
  destruct (channels_create b1 vs) as [[hs|e|] b2]; reflexivity.
Qed.
Lemma object_create_rk k b c vs cs : object_create (rekind k b) c vs cs = lift2 k (object_create b c vs cs).
Proof.
  unfold object_create. cbn [b_contracts rekind]. destruct (negb _); auto.
  destruct (check_types 0 (map prop_type vs) _); auto. destruct (check_types 0 (map ch_type cs) _); auto.
  rewrite states_create_rk. destruct (states_create b vs) as [[h|e|] b1]; cbn; auto.
  rewrite channels_create_rk. destruct (channels_create b1 cs) as [[h2|e|] b2]; cbn; auto.
  destruct (insert (b_objects b2) _) as [[os oh]|e|]; cbn; auto.
  destruct (get _ _); cbn; auto. destruct (set _ _ _); auto.
Qed.
Lemma state_remove_rk k b t h : state_remove (rekind k b) t h = lift2 k (state_remove b t h).
Proof. unfold state_remove. cbn. destruct (b_states b t) as [a|]; auto. destruct (aremove a h) as [a' [v|]]; auto. Qed.
Lemma channel_remove_rk k b t h : channel_remove (rekind k b) t h = lift2 k (channel_remove b t h).
Proof. unfold channel_remove. cbn. destruct (b_channels b t) as [a|]; auto. destruct (aremove a h) as [a' [v|]]; auto. Qed.
Lemma remove_states_rk k ids o : forall b, remove_states (rekind k b) ids o = lift2 k (remove_states b ids o).
Proof.
  induction ids as [|i ids IH]; intros b; cbn [remove_states]; auto. unfold bind_state. cbn [b_objects rekind].
  destruct (match get (b_objects b) o with Some _ => _ | None => _ end); auto.
  rewrite state_remove_rk. cbn. apply IH.
Qed.
Lemma remove_channels_rk k ids o : forall b, remove_channels (rekind k b) ids o = lift2 k (remove_channels b ids o).
Proof.
  induction ids as [|i ids IH]; intros b; cbn [remove_channels]; auto. unfold bind_channel. cbn [b_objects rekind].
  destruct (match get (b_objects b) o with Some _ => _ | None => _ end); auto.
  rewrite channel_remove_rk. cbn. apply IH.
Qed.
Lemma object_remove_rk k b C o : object_remove (rekind k b) C o = lift2 k (object_remove b C o).
Proof.
  unfold object_remove. cbn [b_objects rekind]. destruct (aremove (b_objects b) o) as [os [ob|]]; auto.
  change (with_objects (rekind k b) os) with (rekind k (with_objects b os)).
  rewrite remove_states_rk. destruct (remove_states (with_objects b os) _ o) as [[u|e|] b1]; cbn; auto.
  apply remove_channels_rk.
Qed.
Lemma remove_all_rk k C ord : forall b, remove_all (rekind k b) C ord = lift2 k (remove_all b C ord).
Proof.
  induction ord as [|o ord IH]; intros b; cbn; auto. rewrite object_remove_rk.
  destruct (object_remove b C o) as [[u|e|] b1]; cbn; auto.
Qed.
Lemma bstep_rk k b op : bstep (rekind k b) op = lift2 k (bstep b op).
Proof.
  destruct op; cbn [bstep]; unfold ret_map, lift2; cbn [fst snd].
  - unfold register_contract. cbn [b_contracts rekind]. destruct (existsb _ _); auto.
    destruct (insert _ _) as [[cs h]|e|]; auto.
  - unfold unregister_contract. cbn [b_contracts rekind]. destruct (get _ h) as [cd|]; auto.
    destruct (negb _); auto. destruct (set _ h _) as [cts|]; auto.
    change (with_contracts (rekind k b) cts) with (rekind k (with_contracts b cts)).
    rewrite remove_all_rk. destruct (remove_all _ C ord) as [[u|e|] b2]; auto.
  - rewrite object_create_rk. reflexivity.
  - rewrite object_remove_rk. reflexivity.
  - unfold state_set. cbn [b_states rekind]. destruct (b_states b (prop_type v)) as [a|]; auto.
    destruct (set a h v); auto.
  - unfold channel_set_keys. cbn [b_channels rekind]. destruct (b_channels b t) as [a|]; auto.
    destruct (get a h) as [c|]; auto. destruct (set a h _); auto.
  - unfold object_set_warp. cbn [b_objects rekind]. destruct (get _ o) as [ob|]; auto. destruct (set _ o _); auto.
Qed.

(** The results of a history. *)
Fixpoint results (b : baseline) (ops : list bop) : list (outcome bret) :=
  match ops with [] => [] | op :: t => let '(x, b') := bstep b op in x :: results b' t end.

Theorem C36_same_history_same_handles :
  forall ops k1 k2, results (baseline_new k1) ops = results (baseline_new k2) ops.
Proof.
  intros ops k1 k2. change (baseline_new k2) with (rekind k2 (baseline_new k1)).
  generalize (baseline_new k1) as b. induction ops as [|op ops IH]; intros b; cbn; auto.
  rewrite bstep_rk. destruct (bstep b op) as [x b']. cbn. f_equal. apply IH.
Qed.
Print Assumptions C36_same_history_same_handles.

(** ** The API calls are steps of the schedules above *)

(** The engine a client holds and the idle system it stands for. *)
Definition same_engine (e : engine) (s : sys) : Prop :=
  s_realm s = e_realm e /\ map snd (s_queue s) = e_queue e /\ s_cap s = e_cap e /\
  s_senders s = e_senders e /\ s_phase s = Idle.

Theorem C16_send_matches_schedule :
  forall e s tid c, same_engine e s -> s_senders s <> 0%nat ->
    (forall e', send e c = Some e' -> exists s', step s (LSend tid c) s' /\ same_engine e' s') /\
    (send e c = None -> step s (LFull tid c) s).
Proof.
  intros e s tid c [H1 [H2 [H3 [H4 H5]]]] Hs. unfold send, queue_full.
  assert (Hl : length (s_queue s) = length (e_queue e)) by (rewrite <- H2, map_length; auto).
  split.
  - intros e' E. exists (mkSys (s_realm s) (s_queue s ++ [(tid, c)]) (s_cap s) (s_senders s) (s_phase s)). split.
    + apply step_send; auto. intros [n [Hn Hle]]. rewrite H3 in Hn. rewrite Hn in E.
      rewrite Hl in Hle. destruct (Nat.leb_spec n (length (e_queue e))); [discriminate|lia].
    + destruct (match e_cap e with None => false | Some n => Nat.leb n (length (e_queue e)) end); [discriminate|].
      injection E as <-. unfold same_engine. cbn. rewrite map_app, H2, H1, H3, H4. auto.
  - intros E. apply step_full; auto. destruct (e_cap e) as [n|] eqn:Ec; [|discriminate].
    destruct (Nat.leb_spec n (length (e_queue e))); [|discriminate]. exists n. rewrite Hl. auto.
Qed.
Print Assumptions C16_send_matches_schedule.

Theorem C18_tick_matches_schedule :
  forall e s t, same_engine e s -> exists s', step s (LTick t) s' /\ same_engine (tick e t) s'.
Proof.
  intros e s t [H1 [H2 [H3 [H4 H5]]]]. eexists. split; [apply step_tick; auto|].
  unfold same_engine, tick. cbn. rewrite H1. auto.
Qed.
Print Assumptions C18_tick_matches_schedule.

(** [n] sends that find room, then any number of applies: the results carry the
    collactions in the order sent. *)
Fixpoint send_all (e : engine) (cs : list collaction) : option engine :=
  match cs with
  | [] => Some e
  | c :: t => match send e c with Some e' => send_all e' t | None => None end
  end.
Fixpoint try_apply_n (n : nat) (e : engine) : list (outcome recv_result) * engine :=
  match n with
  | O => ([], e)
  | S n' => let '(x, e1) := try_apply e in let '(l, e2) := try_apply_n n' e1 in (x :: l, e2)
  end.
Definition carries (c : collaction) (x : outcome recv_result) : Prop :=
  exists y, x = Ok (Received y) /\ cresult_actions y = c.

Theorem C16_sent_then_applied_in_order :
  forall r cap cs e, Forall (Forall (fun a => ~ is_write a)) cs ->
    send_all (engine_new r cap) cs = Some e ->
    forall n, (n <= length cs)%nat -> Forall2 carries (firstn n cs) (fst (try_apply_n n e)).
Proof.
  intros r cap cs e Hw Hs.
  assert (Hq : e_queue e = cs).
  { assert (G : forall l e0, send_all e0 l = Some e -> e_queue e = e_queue e0 ++ l).
    { clear. induction l as [|c l IH]; intros e0 H; cbn in H.
      - injection H as <-. rewrite app_nil_r. auto.
      - unfold send in H. destruct (queue_full e0); [discriminate|]. apply IH in H. cbn in H.
        rewrite H, <- app_assoc. reflexivity. }
    apply G in Hs. exact Hs. }
  clear Hs. revert e Hq Hw. induction cs as [|c cs IH]; intros e Hq Hw n Hn; cbn in Hn.
  - assert (n = 0)%nat by lia. subst n. constructor.
  - destruct n as [|n]; [constructor|]. inversion Hw as [|x y Hc Hcs]; subst x y.
    destruct (C14_try_apply e c cs Hq Hc try_apply (or_introl eq_refl)) as [x [E [Ex _]]].
    cbn. rewrite E. specialize (IH (mkEngine (e_realm e) cs (e_cap e) (e_senders e)) eq_refl Hcs n ltac:(lia)).
    destruct (try_apply_n n (mkEngine (e_realm e) cs (e_cap e) (e_senders e))) as [l e2]. cbn in *.
    constructor; auto. exists x. auto.
Qed.
Print Assumptions C16_sent_then_applied_in_order.
Example sent_in_order_example :
  exists e, send_all (engine_new (realm_new Coq.Strings.String.EmptyString) (Some 2%nat)) [[]; []] = Some e /\
    fst (try_apply_n 2 e) = [Ok (Received (Accepted [])); Ok (Received (Accepted []))] /\
    send e [] = None.
Proof. eexists. split; [reflexivity|]. split; reflexivity. Qed.
