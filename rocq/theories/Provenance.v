(** Where the values of a baseline come from. *)
From Verif Require Import BaselineProofs BaselineMono RecordProofs.
Open Scope list_scope.
Open Scope nat_scope.

(** The values, and the channels' contents, that a call hands over. *)
Definition given (op : bop) : list dynprop :=
  match op with
  | BCreate _ vs _ => vs
  | BSetState _ v => [v]
  | _ => []
  end.
Definition given_keys (op : bop) : list keyframe :=
  match op with
  | BCreate _ _ cs => flat_map ch_keys cs
  | BSetKeys _ _ ks => ks
  | _ => []
  end.

Lemma bstep_values b op r b' :
  binv b -> bop_ok b op -> bstep b op = (r, b') -> r <> Panic ->
  (forall t h v, st_at b' t h = Some v -> st_at b t h = Some v \/ In v (given op)) /\
  (forall t h c, ch_at b' t h = Some c -> ch_at b t h = Some c \/ incl (ch_keys c) (given_keys op)).
Proof.
  intros Hb Hok Hs Hnp.
  assert (Hsame : b_states b' = b_states b -> b_channels b' = b_channels b ->
    (forall t h v, st_at b' t h = Some v -> st_at b t h = Some v \/ In v (given op)) /\
    (forall t h c, ch_at b' t h = Some c -> ch_at b t h = Some c \/ incl (ch_keys c) (given_keys op))).
  { intros E1 E2. split; intros t h v; rewrite ?st_at_look, ?ch_at_look, ?E1, ?E2; auto. }
  destruct op; cbn [bstep] in Hs; unfold ret_map in Hs.
  - apply Hsame; destruct (register_spec b C Hb) as [[_ E]|[Hno [cs [h [Hi E]]]]]; rewrite E in Hs; injection Hs as <- <-; reflexivity.
  - destruct (unregister_spec b C h ord Hb Hok) as [[_ E]|[cd [_ [[_ E]|[_ [[b1 [E Hu]]|[_ E]]]]]]].
    + rewrite E in Hs. injection Hs as <- <-. apply Hsame; reflexivity.
    + rewrite E in Hs. injection Hs as <- <-. apply Hsame; reflexivity.
    + rewrite E in Hs. injection Hs as <- <-. destruct Hu as [cd1 [os [_ [_ [_ [_ [_ [_ [_ [H1 [H2 _]]]]]]]]]]]. apply Hsame; auto.
    + rewrite E in Hs. cbn in Hs. injection Hs as <- <-. congruence.
  - destruct (create_spec b c vs cs Hb) as [[_ [e E]]|[_ [oh [ob [b1 [E Hc]]]]]]; rewrite E in Hs;
      injection Hs as <- <-; [apply Hsame; reflexivity|]. split.
    + intros t h v. cbn [snd]. rewrite !st_at_look. intros H.
      destruct (is_only _ _ _ _ _ (cr_st _ _ _ _ _ _ _ Hc) _ _ _ H) as [H'|[i [H' _]]]; [auto|].
      right. cbn. eapply nth_error_In; eauto.
    + intros t h k. cbn [snd]. rewrite !ch_at_look. intros H.
      destruct (is_only _ _ _ _ _ (cr_ch _ _ _ _ _ _ _ Hc) _ _ _ H) as [H'|[i [H' _]]]; [auto|].
      right. cbn. intros x Hx. apply in_flat_map. exists k. split; auto. eapply nth_error_In; eauto.
  - rewrite object_remove_spec in Hs by apply Hb. injection Hs as <- <-. apply Hsame; reflexivity.
  - destruct (state_set_spec b h v Hb) as [[_ [e E]]|[_ [m' [E [_ Hl]]]]]; rewrite E in Hs; injection Hs as <- <-;
      [apply Hsame; reflexivity|]. split; [|intros t h' c; cbn [snd]; rewrite !ch_at_look; auto].
    intros t h' v'. cbn [snd]. rewrite !st_at_look. cbn [b_states with_states]. rewrite Hl.
    destruct (tm_same (prop_type v) h t h'); auto. intros H. injection H as <-. right. left. reflexivity.
  - destruct (channel_set_spec b t h ks Hb) as [[_ [e E]]|[c [m' [_ [E [_ Hl]]]]]]; rewrite E in Hs; injection Hs as <- <-;
      [apply Hsame; reflexivity|]. split; [intros t' h' c'; cbn [snd]; rewrite !st_at_look; auto|].
    intros t' h' v'. cbn [snd]. rewrite !ch_at_look. cbn [b_channels with_channels]. rewrite Hl.
    destruct (tm_same t h t' h'); auto. intros H. injection H as <-. right. cbn. apply incl_refl.
  - unfold object_set_warp in Hs. apply Hsame;
      destruct (get (b_objects b) o); try (injection Hs as <- <-; reflexivity);
      destruct (set (b_objects b) o _); injection Hs as <- <-; reflexivity.
Qed.

Lemma bsteps_values b ops b' : binv b -> bsteps b ops b' ->
  (forall t h v, st_at b' t h = Some v -> st_at b t h = Some v \/ In v (flat_map given ops)) /\
  (forall t h c, ch_at b' t h = Some c -> ch_at b t h = Some c \/ incl (ch_keys c) (flat_map given_keys ops)).
Proof.
  intros Hb Hs. induction Hs as [b|b op r b1 ops b2 Hok E Hnp Hs IH].
  - split; auto.
  - destruct (bstep_values _ _ _ _ Hb Hok E Hnp) as [V1 V2].
    destruct (IH (bstep_binv _ _ _ _ Hb Hok E Hnp)) as [W1 W2]. split; intros t h v H; cbn [flat_map].
    + destruct (W1 _ _ _ H) as [H'|H']; [|right; apply in_or_app; auto].
      destruct (V1 _ _ _ H') as [H''|H'']; [auto|]. right. apply in_or_app; auto.
    + destruct (W2 _ _ _ H) as [H'|H']; [|right; intros x Hx; apply in_or_app; auto].
      destruct (V2 _ _ _ H') as [H''|H'']; [auto|]. right. intros x Hx. apply in_or_app; auto.
Qed.

(** The same calls as [rop]s. *)
Definition as_bop (op : rop) : option bop :=
  match op with
  | RRegister C => Some (BRegister C)
  | RUnregister C h ord => Some (BUnregister C h ord)
  | RCreate C h vs cs => Some (BCreate (mkCinst C h) vs cs)
  | RRemove C o => Some (BRemove C o)
  | RSet sh v => Some (BSetState sh v)
  | RSetCh t sh ks => Some (BSetKeys t sh ks)
  | RSetWarp o w => Some (BSetWarp o w)
  | _ => None
  end.
Lemma as_bop_step b op r b' : cstep b op = (r, b') -> is_panic r = false ->
  match as_bop op with
  | Some bo => exists r', bstep b bo = (r', b') /\ r' <> Panic
  | None => b' = b
  end.
Proof.
  destruct op; cbn [cstep as_bop bstep]; unfold on_fst, ret_map;
    try (match goal with |- (omap _ (fst ?e), snd ?e) = _ -> _ => destruct e as [[]] end; cbn [fst snd omap];
         intros H Hp; injection H as <- <-; eexists; (split; [reflexivity|]); discriminate || discriminate Hp);
    try (intros H; injection H as <- <-; reflexivity).
  - destruct (ci_state_id _ _); intros H; injection H as <- <-; reflexivity.
  - destruct (ci_chan_id _ _); intros H; injection H as <- <-; reflexivity.
Qed.
Lemma as_bop_ok b s fs fc op bo : rrel b s fs fc -> disciplined s op -> as_bop op = Some bo -> bop_ok b bo.
Proof.
  intros Hr Hd E. destruct op; try discriminate; injection E as <-; cbn in *; auto.
  - intros cd Hcd. pose proof (rr_con _ _ _ _ Hr h) as Hc.
    destruct (rs_con s h) as [C'|] eqn:Ec.
    + destruct Hc as [cd' [H1 [_ H2]]]. assert (cd' = cd) by congruence. subst. rewrite H2. apply Hd. discriminate.
    + congruence.
  - tauto.
  - tauto.
Qed.
