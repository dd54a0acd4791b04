(** Lemmas about the C# bindings: the ownership invariant and the native calls made. *)
From Verif Require Export CApiWrite CSharpSpec PropertiesCApi.
Open Scope list_scope.
Open Scope nat_scope.

(** ** Lists of wrappers *)
Definition null (x : wrapper) : wrapper := mkWr (wr_kind x) None (wr_own x).
Lemma forget_nth ws i j : nth_error (forget ws i) j =
  if Nat.eqb i j then option_map null (nth_error ws j) else nth_error ws j.
Proof.
  unfold forget. destruct (nth_error ws i) as [x|] eqn:E.
  - rewrite nth_error_list_set. destruct (Nat.eqb_spec i j) as [<-|]; [|reflexivity].
    rewrite E. cbn. destruct (Nat.ltb_spec i (length ws)) as [|L]; [reflexivity|]. apply nth_error_None in L. congruence.
  - destruct (Nat.eqb_spec i j) as [<-|]; [rewrite E|]; reflexivity.
Qed.
Lemma forget_length ws i : length (forget ws i) = length ws.
Proof. unfold forget. destruct (nth_error ws i); [apply list_set_length|reflexivity]. Qed.
(** [ws'] is [ws] with some wrappers nulled. *)
Definition fewer (ws ws' : list wrapper) : Prop :=
  length ws' = length ws /\
  forall i x, nth_error ws i = Some x -> nth_error ws' i = Some x \/ nth_error ws' i = Some (null x).
Lemma fewer_refl ws : fewer ws ws. Proof. split; auto. Qed.
Lemma null_null x : null (null x) = null x. Proof. reflexivity. Qed.
Lemma fewer_forget ws ws' i : fewer ws ws' -> fewer ws (forget ws' i).
Proof.
  intros [L F]. split; [now rewrite forget_length|]. intros j x E. rewrite forget_nth.
  destruct (F _ _ E) as [Q|Q]; rewrite Q; destruct (Nat.eqb i j); cbn; auto.
Qed.

(** ** Ownership *)
Definition cell_kind (c : cell) : option wkind :=
  match c with
  | CBase _ _ => Some WBase | CCon _ => Some WCon
  | CVal v => Some (WVal (match dynprim_type v with TPrim t => t | TVec t => t end))
  | CSid t _ => Some (WSid t) | CSh t _ => Some (WSh t) | CSt t _ => Some (WSt t)
  | CObjs _ => None (* no class wraps a list *)
  end.
Record winv (w : world) : Prop := {
  wi_reach : reaches (wh w);
  wi_own : forall i k p, nth_error (ww w) i = Some (mkWr k (Some p) Owned) ->
     exists a c, p = PBox a /\ look (wh w) a = Some c /\ cell_kind c = Some k;
  wi_inj : forall i j k k' p, nth_error (ww w) i = Some (mkWr k (Some p) Owned) ->
     nth_error (ww w) j = Some (mkWr k' (Some p) Owned) -> i = j;
  wi_ref : forall i k a o, nth_error (ww w) i = Some (mkWr k (Some (PBox a)) o) -> o <> Owned -> k = WBase
}.
Lemma winv_empty : winv empty_world.
Proof. constructor; [constructor| | |]; intros [|i]; cbn; discriminate. Qed.

Lemma kind_kept H c r H' a x y : hinv H -> step H c = Done r H' -> look H a = Some x -> look H' a = Some y -> cell_kind y = cell_kind x.
Proof.
  intros I E L L'. destruct (step_change _ _ _ _ I E) as [_ Ch]. specialize (Ch a). rewrite L, L' in Ch.
  inversion Ch; subst; reflexivity.
Qed.
Lemma step_fresh H c x H' : step H c = Done (RPtr (PBox x)) H' -> x = length H.
Proof.
  destruct c; cbn [step];
  repeat match goal with
  | |- context [match ?x with _ => _ end] => destruct x eqn:?; try discriminate
  end;
  try (intros E; injection E; intros; subst; discriminate);
  intros E; apply new_box_done in E; destruct E as [E _]; injection E as ->; unfold put; rewrite ?free_length, ?list_set_length; reflexivity.
Qed.

(** A native call that takes boxes only from wrappers that are nulled keeps ownership. *)
Lemma winv_call w ws' c r H' : winv w -> fewer (ww w) ws' -> step (wh w) c = Done r H' ->
  (forall a, In (PBox a) (gives_away c) -> exists i k,
     nth_error (ww w) i = Some (mkWr k (Some (PBox a)) Owned) /\ nth_error ws' i = Some (mkWr k None Owned)) ->
  winv (mkWorld H' ws').
Proof.
  intros W [Len F] E G. pose proof (reaches_hinv _ (wi_reach _ W)) as I.
  assert (Back : forall i k p o, nth_error ws' i = Some (mkWr k (Some p) o) -> nth_error (ww w) i = Some (mkWr k (Some p) o)).
  { intros i k p o Q. destruct (nth_error (ww w) i) as [x|] eqn:N.
    - destruct (F _ _ N) as [Q'|Q']; rewrite Q in Q'; [congruence|]. unfold null in Q'. congruence.
    - apply nth_error_None in N. assert (i < length ws') by (apply nth_error_Some; congruence). lia. }
  constructor; cbn [wh ww].
  - econstructor; [apply (wi_reach _ W)|exact E].
  - intros i k p Q'. pose proof (Back _ _ _ _ Q') as Q. destruct (wi_own _ W _ _ _ Q) as (a & x & -> & L & K).
    assert (Hh : held H' (PBox a)).
    { apply (C44_boxes_live_until_given_away _ _ _ _ a (wi_reach _ W) E). left. split; [apply held_box; congruence|].
      intros Hin. destruct (G _ Hin) as (j & k' & Qj & Nj). assert (j = i) by (eapply wi_inj; eauto). subst j. congruence. }
    apply held_box in Hh. destruct (look H' a) as [y|] eqn:L'; [|congruence].
    exists a, y. split; [reflexivity|]. split; [exact L'|]. rewrite (kind_kept _ _ _ _ _ _ _ I E L L'). exact K.
  - intros i j k k' p Qi Qj. apply Back in Qi. apply Back in Qj. eapply wi_inj; eauto.
  - intros i k a o Q N. apply Back in Q. eapply wi_ref; eauto.
Qed.

(** Adding a wrapper. *)
Lemma winv_own w k a c : winv w -> look (wh w) a = Some c -> cell_kind c = Some k ->
  (forall i k' , nth_error (ww w) i <> Some (mkWr k' (Some (PBox a)) Owned)) ->
  winv (mkWorld (wh w) (ww w ++ [mkWr k (Some (PBox a)) Owned])).
Proof.
  intros W L K N.
  assert (Ca : forall i x, nth_error (ww w ++ [mkWr k (Some (PBox a)) Owned]) i = Some x ->
     nth_error (ww w) i = Some x \/ (i = length (ww w) /\ x = mkWr k (Some (PBox a)) Owned)).
  { intros i x E. destruct (Nat.lt_ge_cases i (length (ww w))) as [Li|Li].
    - rewrite nth_error_app1 in E by exact Li. auto.
    - rewrite nth_error_app2 in E by exact Li. destruct (i - length (ww w)) as [|n] eqn:Q; cbn in E; [|destruct n; discriminate].
      right. split; [lia|congruence]. }
  constructor; cbn [wh ww].
  - apply (wi_reach _ W).
  - intros i k' p E. destruct (Ca _ _ E) as [E'|[_ E']]; [eapply wi_own; eauto|]. injection E' as -> ->. eauto.
  - intros i j k1 k2 p E1 E2. destruct (Ca _ _ E1) as [F1|[-> F1]], (Ca _ _ E2) as [F2|[-> F2]].
    + eapply wi_inj; eauto.
    + exfalso. assert (p = PBox a) by congruence. subst p. eapply N; eauto.
    + exfalso. assert (p = PBox a) by congruence. subst p. eapply N; eauto.
    + reflexivity.
  - intros i k' x o E No. destruct (Ca _ _ E) as [E'|[_ E']]; [eapply wi_ref; eauto|]. congruence.
Qed.
Lemma winv_view w k p o : winv w -> o <> Owned -> (forall a, p = PBox a -> k = WBase) ->
  winv (mkWorld (wh w) (ww w ++ [mkWr k (Some p) o])).
Proof.
  intros W No P.
  assert (Ca : forall i x, nth_error (ww w ++ [mkWr k (Some p) o]) i = Some x ->
     nth_error (ww w) i = Some x \/ x = mkWr k (Some p) o).
  { intros i x E. destruct (Nat.lt_ge_cases i (length (ww w))) as [Li|Li].
    - rewrite nth_error_app1 in E by exact Li. auto.
    - rewrite nth_error_app2 in E by exact Li. destruct (i - length (ww w)) as [|n]; cbn in E; [|destruct n; discriminate]. right. congruence. }
  constructor; cbn [wh ww].
  - apply (wi_reach _ W).
  - intros i k' q E. destruct (Ca _ _ E) as [E'|E']; [eapply wi_own; eauto|congruence].
  - intros i j k1 k2 q E1 E2. destruct (Ca _ _ E1) as [F1|F1], (Ca _ _ E2) as [F2|F2]; [eapply wi_inj; eauto|congruence..].
  - intros i k' x o' E No'. destruct (Ca _ _ E) as [E'|E']; [eapply wi_ref; eauto|]. injection E' as -> E' _. symmetry in E'. eauto.
Qed.

(** ** Reading off a call *)
Lemma wkind_eqb_eq a b : wkind_eqb a b = true <-> a = b.
Proof.
  split.
  - destruct a, b; cbn; try discriminate; try reflexivity; intros E; apply prim_eqb_eq in E; now subst.
  - intros ->. destruct b; cbn; auto; apply prim_eqb_refl.
Qed.
Lemma typed_return w i k f r w' : typed w i k f = Return r w' ->
  exists p o, nth_error (ww w) i = Some (mkWr k p o) /\ f (mkWr k p o) = Return r w'.
Proof.
  unfold typed. destruct (nth_error (ww w) i) as [[k' p o]|] eqn:E; [|discriminate]. cbn [wr_kind].
  destruct (wkind_eqb k' k) eqn:K; [|discriminate]. apply wkind_eqb_eq in K. subst k'. eauto.
Qed.
Lemma inner_return w x f r w' : inner w x f = Return r w' -> exists p, wr_inner x = Some p /\ f p = Return r w'.
Proof. unfold inner. destruct (wr_inner x); [eauto|discriminate]. Qed.
Lemma use_return w i k f r w' : use w i k f = Return r w' ->
  exists p o, nth_error (ww w) i = Some (mkWr k (Some p) o) /\ f p = Return r w'.
Proof.
  unfold use. intros E. apply typed_return in E. destruct E as (p & o & N & E). apply inner_return in E.
  destruct E as (q & Q & E). cbn in Q. subst p. eauto.
Qed.
Lemma wrap_return k o ws x r w' : wrap k o ws x = Return r w' ->
  exists p H, x = Done (RPtr p) H /\ r = Ref (length ws) /\ w' = mkWorld H (ws ++ [mkWr k (Some p) o]).
Proof. unfold wrap. destruct x as [[]| |]; try discriminate. intros E. injection E as <- <-. eauto. Qed.
Definition told (r : ret) : option cret :=
  match r with
  | RUnit => Some Nothing | RVal v => Some (Val v) | RName s => Some (Name s) | RVersion v => Some (Version v)
  | RKind k => Some (Flag (match k with KMain => true | KFork => false end)) | RPtr _ | RVec _ _ => None
  end.
Lemma plain_return ws x r w' : plain ws x = Return r w' ->
  exists r0 H, x = Done r0 H /\ told r0 = Some r /\ w' = mkWorld H ws.
Proof. unfold plain. destruct x as [[]| |]; try discriminate; intros E; injection E as <- <-; do 2 eexists; (split; [reflexivity|split; reflexivity]). Qed.

(** Which calls are behind which native calls. *)
Definition origin (w : world) (o : op) (c : call) : Prop :=
  match c with
  | State__value_set t q _ => exists s x ow, o = SetStateValue t s x /\ nth_error (ww w) s = Some (mkWr (WSt t) (Some q) ow)
  | Other__object_handle h => o = ForeignHandle h
  | ExampleContract__register p => exists b ow, o = Register b /\ nth_error (ww w) b = Some (mkWr WBase (Some p) ow)
  | _ => True
  end.
(** What a returning call did. *)
Record did (w : world) (o : op) (r : cret) (w' : world) : Prop := {
  dd_inv : winv w';
  dd_keep : forall i x, nth_error (ww w) i = Some x -> nth_error (ww w') i = Some x \/ nth_error (ww w') i = Some (null x);
  dd_call : wh w' = wh w \/ exists c r0, step (wh w) c = Done r0 (wh w') /\
     origin w o c /\
     (forall a, In (PBox a) (gives_away c) -> exists i k,
        nth_error (ww w) i = Some (mkWr k (Some (PBox a)) Owned) /\ nth_error (ww w') i = Some (mkWr k None Owned))
}.

Section Did.
Context (w : world) (o : op) (W : winv w).

Lemma did_plain ws' c r0 H' r : fewer (ww w) ws' -> step (wh w) c = Done r0 H' ->
  origin w o c ->
  (forall a, In (PBox a) (gives_away c) -> exists i k,
     nth_error (ww w) i = Some (mkWr k (Some (PBox a)) Owned) /\ nth_error ws' i = Some (mkWr k None Owned)) ->
  did w o r (mkWorld H' ws').
Proof.
  intros F E A G. constructor.
  - eapply winv_call; eauto.
  - apply F.
  - right. exists c, r0. cbn [wh ww]. auto.
Qed.
Lemma did_wrap ws' c p H' r k ow : fewer (ww w) ws' -> step (wh w) c = Done (RPtr p) H' ->
  origin w o c ->
  (forall a, In (PBox a) (gives_away c) -> exists i k,
     nth_error (ww w) i = Some (mkWr k (Some (PBox a)) Owned) /\ nth_error ws' i = Some (mkWr k None Owned)) ->
  (ow = Owned -> exists a x, p = PBox a /\ look H' a = Some x /\ cell_kind x = Some k) ->
  (ow <> Owned -> forall a, p = PBox a -> k = WBase) ->
  did w o r (mkWorld H' (ws' ++ [mkWr k (Some p) ow])).
Proof.
  intros F E A G O V. pose proof (winv_call _ _ _ _ _ W F E G) as W1.
  assert (K : forall i x, nth_error (ww w) i = Some x ->
     nth_error (ws' ++ [mkWr k (Some p) ow]) i = Some x \/ nth_error (ws' ++ [mkWr k (Some p) ow]) i = Some (null x)).
  { intros i x N. destruct F as [Len F]. rewrite nth_error_app1; [auto|]. rewrite Len. apply nth_error_Some. congruence. }
  constructor; cbn [wh ww]; [|exact K|].
  - destruct ow.
    + destruct (O eq_refl) as (a & x & -> & L & Kd).
      eapply (winv_own (mkWorld H' ws')); eauto. cbn [ww]. intros i k' N.
      (* the box is new *)
      apply step_fresh in E. subst a.
      destruct F as [Len F]. destruct (nth_error (ww w) i) as [y|] eqn:Ny.
      * destruct (F _ _ Ny) as [Q|Q]; rewrite N in Q; [|unfold null in Q; congruence]. assert (y = mkWr k' (Some (PBox (length (wh w)))) Owned) by congruence. subst y.
        destruct (wi_own _ W _ _ _ Ny) as (a & c0 & Qa & La & _). injection Qa as <-. apply look_lt in La. lia.
      * apply nth_error_None in Ny. assert (i < length ws') by (apply nth_error_Some; congruence). lia.
    + apply (winv_view (mkWorld H' ws')); auto; try discriminate. apply V. discriminate.
    + apply (winv_view (mkWorld H' ws')); auto; try discriminate. apply V. discriminate.
  - right. exists c, (RPtr p). split; [exact E|]. split; [exact A|]. intros a Hin. destruct (G _ Hin) as (i & k' & N1 & N2).
    exists i, k'. split; [exact N1|]. rewrite nth_error_app1; [exact N2|]. apply nth_error_Some. congruence.
Qed.
End Did.

(** A value wrapper that can be given to a function taking the box owns it. *)
Lemma stolen w i t p o a v : winv w -> nth_error (ww w) i = Some (mkWr (WVal t) (Some p) o) -> owned_val (wh w) t p = Some (a, v) ->
  p = PBox a /\ o = Owned.
Proof.
  intros W N Ow. apply owned_val_some in Ow. destruct Ow as (-> & _). split; [reflexivity|].
  destruct o; [reflexivity| |]; exfalso; assert (WVal t = WBase) by (eapply wi_ref; eauto; discriminate); discriminate.
Qed.

Lemma new_box_kind H c p H' : new_box H c = Done (RPtr p) H' -> exists a x, p = PBox a /\ look H' a = Some x /\ cell_kind x = cell_kind c.
Proof. intros E. apply new_box_done in E. destruct E as [E ->]. injection E as ->. do 2 eexists. split; [reflexivity|]. split; [apply look_new|reflexivity]. Qed.

Ltac none := let a := fresh in let Hin := fresh in intros a Hin; cbn in Hin; destruct Hin.
Ltac noset := exact Logic.I.

Theorem step_did w o r w' : winv w -> ~ broken o -> cs_step w o = Return r w' -> did w o r w'.
Proof.
  intros W Nb E. pose proof (wi_reach _ W) as R. pose proof (reaches_hinv _ R) as I. destruct o; cbn [cs_step] in E.
  - (* NewBaseline *) apply wrap_return in E. destruct E as (p & H & E & -> & ->).
    eapply did_wrap; eauto using fewer_refl; try noset; try none; try congruence.
    intros _. eapply (new_box_kind _ (CBase _ _)). cbn [step] in E. exact E.
  - (* IsMain *) apply use_return in E. destruct E as (p & ow & N & E). apply plain_return in E. destruct E as (r0 & H & E & _ & ->).
    eapply did_plain; eauto using fewer_refl; [noset|none].
  - (* GetContractData *) apply typed_return in E. destruct E as (pb & ob & Nb' & E). apply typed_return in E. destruct E as (ph & oh & Nh & E).
    cbn [wr_inner] in E. destruct ph as [hp|]; [|discriminate]. apply inner_return in E. destruct E as (p & _ & E).
    apply wrap_return in E. destruct E as (q & H & E & -> & ->).
    eapply did_wrap; eauto using fewer_refl; [noset|none|discriminate|]. intros _ a ->. exfalso. cbn [step] in E.
    destruct (base_at (wh w) p) as [[[? ?] ?]|]; [|discriminate]. destruct (con_handle_at (wh w) hp); [|discriminate].
    destruct (contract_data_of _ _); discriminate.
  - (* DataId *) apply use_return in E. destruct E as (p & ow & N & E). apply wrap_return in E. destruct E as (q & H & E & -> & ->).
    eapply did_wrap; eauto using fewer_refl; [noset|none|discriminate|]. intros _ a ->. exfalso. cbn [step] in E.
    destruct p; try discriminate. destruct (borrowed _ _ _); [|discriminate]. destruct (contract_data_of _ _); discriminate.
  - (* IdName *) apply use_return in E. destruct E as (p & ow & N & E). apply plain_return in E. destruct E as (r0 & H & E & _ & ->).
    eapply did_plain; eauto using fewer_refl; [noset|none].
  - (* IdVersion *) apply use_return in E. destruct E as (p & ow & N & E). apply plain_return in E. destruct E as (r0 & H & E & _ & ->).
    eapply did_plain; eauto using fewer_refl; [noset|none].
  - (* NewBox *)
    assert (Q : wrap (WVal (match dynprim_type v with TPrim t => t | TVec t => t end)) Owned (ww w) (step (wh w) (Box__new v)) = Return r w').
    { destruct v as [| | | | | | | | | | |s| |]; try exact E; [|discriminate|discriminate]. destruct s; [discriminate|exact E]. }
    apply wrap_return in Q. destruct Q as (p & H & Q & -> & ->).
    eapply did_wrap; eauto using fewer_refl; try noset; try none; try congruence.
    intros _. apply (new_box_kind (wh w) (CVal v)). cbn [step] in Q. destruct v; try discriminate; exact Q.
  - (* BoxValue *) destruct (nth_error (ww w) x) as [[k p ow]|] eqn:N; [|discriminate]. destruct k; try discriminate.
    destruct (has_value t); [|discriminate]. apply inner_return in E. destruct E as (q & _ & E). apply plain_return in E. destruct E as (r0 & H & E & _ & ->).
    eapply did_plain; eauto using fewer_refl; [noset|none].
  - (* NewState *) apply use_return in E. destruct E as (p & ow & N & E). apply wrap_return in E. destruct E as (q & H & E & -> & ->).
    assert (E0 := E). cbn [step] in E0. destruct (owned_val (wh w) t p) as [[a v0]|] eqn:Ow; [|discriminate].
    destruct (stolen _ _ _ _ _ _ _ W N Ow) as [-> ->].
    eapply did_wrap; eauto using fewer_refl, fewer_forget; [noset| | |congruence].
    + cbn [gives_away]. intros b [Q|[]]. injection Q as <-. exists v, (WVal t). split; [exact N|]. rewrite forget_nth, Nat.eqb_refl, N. reflexivity.
    + intros _. apply (new_box_kind _ (CSt t (PPrim v0))) in E0. exact E0.
  - (* StateValue *) apply use_return in E. destruct E as (p & ow & N & E). apply wrap_return in E. destruct E as (q & H & E & -> & ->).
    eapply did_wrap; eauto using fewer_refl; [noset|none|discriminate|]. intros _ a ->. exfalso. cbn [step] in E.
    destruct (state_ok _ _ _); discriminate.
  - (* SetStateValue *) apply typed_return in E. destruct E as (ps & os & Ns & E). apply typed_return in E. destruct E as (pv & ov & Nv & E).
    apply inner_return in E. destruct E as (p & Qs & E). apply inner_return in E. destruct E as (q & Qv & E). cbn [wr_inner] in Qs, Qv. subst ps pv.
    apply plain_return in E. destruct E as (r0 & H & E & _ & ->).
    assert (E0 := E). cbn [step] in E0. destruct (negb (state_ok (wh w) t p)); [discriminate|].
    destruct (owned_val (wh w) t q) as [[a v0]|] eqn:Ow; [|destruct p; discriminate].
    destruct (stolen _ _ _ _ _ _ _ W Nv Ow) as [-> ->].
    eapply did_plain; eauto using fewer_refl, fewer_forget.
    + cbn [origin]. eauto 6.
    + cbn [gives_away]. intros b [Q|[]]. injection Q as <-. exists v, (WVal t). split; [exact Nv|]. rewrite forget_nth, Nat.eqb_refl, Nv. reflexivity.
  - (* BindState *) destruct (negb (bindable t)); [discriminate|].
    apply typed_return in E. destruct E as (p1 & o1 & N1 & E). apply typed_return in E. destruct E as (p2 & o2 & N2 & E). apply typed_return in E. destruct E as (p3 & o3 & N3 & E).
    apply inner_return in E. destruct E as (q1 & _ & E). apply inner_return in E. destruct E as (q2 & _ & E). apply inner_return in E. destruct E as (q3 & _ & E).
    apply wrap_return in E. destruct E as (q & H & E & -> & ->).
    eapply did_wrap; eauto using fewer_refl; [noset|none| |congruence]. intros _. cbn [step] in E.
    destruct (base_at (wh w) q1) as [[[? ?] ?]|]; [|discriminate]. destruct (sid_at (wh w) t q2); [|discriminate]. destruct (obj_handle_at (wh w) q3); [|discriminate].
    destruct (bind_state _ _ _) as [h| |]; try discriminate. apply (new_box_kind _ (CSh t h)) in E. exact E.
  - (* GetState *) destruct (negb (bindable t)); [discriminate|].
    apply typed_return in E. destruct E as (p1 & o1 & N1 & E). apply typed_return in E. destruct E as (p2 & o2 & N2 & E).
    apply inner_return in E. destruct E as (q1 & _ & E). apply inner_return in E. destruct E as (q2 & _ & E).
    apply wrap_return in E. destruct E as (q & H & E & -> & ->).
    eapply did_wrap; eauto using fewer_refl; [noset|none|discriminate|]. intros _ a ->. exfalso. cbn [step] in E.
    destruct (base_at (wh w) q1) as [[[? ?] ?]|]; [|discriminate]. destruct (sh_at (wh w) t q2); [|discriminate]. destruct (state_get _ _ _); discriminate.
  - (* GetStateMut *) destruct (negb (mutable t)); [discriminate|].
    apply typed_return in E. destruct E as (p1 & o1 & N1 & E). apply typed_return in E. destruct E as (p2 & o2 & N2 & E). cbn [wr_own] in E.
    destruct (is_shared o1); [discriminate|].
    apply inner_return in E. destruct E as (q1 & _ & E). apply inner_return in E. destruct E as (q2 & _ & E).
    apply wrap_return in E. destruct E as (q & H & E & -> & ->).
    eapply did_wrap; eauto using fewer_refl; [noset|none|discriminate|]. intros _ a ->. exfalso. cbn [step] in E.
    destruct (base_at (wh w) q1) as [[[? ?] ?]|]; [|discriminate]. destruct (sh_at (wh w) t q2); [|discriminate]. destruct (state_get _ _ _); discriminate.
  - (* IdContract *) apply use_return in E. destruct E as (p & ow & N & E). apply wrap_return in E. destruct E as (q & H & E & -> & ->).
    eapply did_wrap; eauto using fewer_refl; [noset|none| |congruence]. intros _. cbn [step] in E.
    destruct (sid_at (wh w) t p) as [id|]; [|discriminate]. apply (new_box_kind _ (CVal (VContractDataHandle (pid_contract id)))) in E. exact E.
  - (* Register *) apply typed_return in E. destruct E as (p1 & o1 & N1 & E). cbn [wr_own] in E. destruct (is_shared o1); [discriminate|].
    apply inner_return in E. destruct E as (q1 & Q1 & E). cbn [wr_inner] in Q1. subst p1. apply wrap_return in E. destruct E as (q & H & E & -> & ->).
    eapply did_wrap; eauto using fewer_refl; [cbn [origin]; eauto|none| |congruence]. intros _. cbn [step] in E.
    destruct (base_at (wh w) q1) as [[[? ?] ?]|]; [|discriminate]. destruct (register_contract _ _) as [[ci| |] ?]; try discriminate.
    apply (new_box_kind _ (CCon ci)) in E. exact E.
  - (* Handle *) apply use_return in E. destruct E as (p & ow & N & E). apply wrap_return in E. destruct E as (q & H & E & -> & ->).
    eapply did_wrap; eauto using fewer_refl; [noset|none| |congruence]. intros _. cbn [step] in E.
    destruct (contract_at (wh w) p) as [ci|]; [|discriminate]. apply (new_box_kind _ (CVal (VContractDataHandle (ci_handle ci)))) in E. exact E.
  - (* States *) apply use_return in E. destruct E as (p & ow & N & E). apply wrap_return in E. destruct E as (q & H & E & -> & ->).
    eapply did_wrap; eauto using fewer_refl; [noset|none|discriminate|]. intros _ a ->. exfalso. cbn [step] in E.
    destruct p; try discriminate. destruct (contract_at _ _); discriminate.
  - (* Field *) destruct (negb (has_accessor f)); [discriminate|]. apply use_return in E. destruct E as (p & ow & N & E). apply wrap_return in E. destruct E as (q & H & E & -> & ->).
    eapply did_wrap; eauto using fewer_refl; [noset|none| |congruence]. intros _. cbn [step] in E.
    destruct p; try discriminate. destruct (contract_at _ _) as [ci|]; [|discriminate].
    apply (new_box_kind _ (CSid (exfield_prim f) (mkPid (TPrim (exfield_prim f)) (exfield_idx f) (ci_handle ci)))) in E. exact E.
  - (* ObjectCreate *) exfalso. apply Nb. unfold broken. repeat eexists.
  - (* ObjectRemove *) exfalso. apply typed_return in E. destruct E as (p1 & o1 & N1 & E). apply typed_return in E. destruct E as (p2 & o2 & N2 & E). cbn [wr_own] in E.
    destruct (is_shared o1); [discriminate|]. apply inner_return in E. destruct E as (q1 & _ & E). apply inner_return in E. destruct E as (q2 & _ & E).
    apply plain_return in E. destruct E as (r0 & H & E & _). eapply C44_object_remove_never_returns_refuted; eauto.
  - (* Dispose *) destruct (nth_error (ww w) x) as [[k p ow]|] eqn:N; [|discriminate]. cbn [wr_own wr_inner wr_kind] in E.
    assert (Quiet : did w (Dispose x) Nothing (mkWorld (wh w) (forget (ww w) x)) \/ (ow = Owned /\ p <> None)).
    { destruct (match ow, p with Owned, Some _ => true | _, _ => false end) eqn:Q.
      - right. destruct ow; try discriminate. destruct p; try discriminate. split; [reflexivity|congruence].
      - left. constructor; cbn [wh ww]; [|apply (fewer_forget _ _ x (fewer_refl (ww w)))|now left].
        constructor; cbn [wh ww]; [exact R| | |].
        + intros i k0 q. rewrite forget_nth. destruct (Nat.eqb i x) eqn:?; destruct (Nat.eqb_spec x i) as [->|]; [|eapply wi_own; eauto| |eapply wi_own; eauto]; rewrite N; unfold null; cbn; congruence.
        + intros i j k1 k2 q. rewrite !forget_nth. destruct (Nat.eqb x i), (Nat.eqb x j); try (destruct (nth_error (ww w) i); cbn; discriminate); try (destruct (nth_error (ww w) j); cbn; discriminate); eapply wi_inj; eauto.
        + intros i k0 q o0. rewrite forget_nth. destruct (Nat.eqb x i); [destruct (nth_error (ww w) i); cbn; discriminate|]. eapply wi_ref; eauto. }
    destruct Quiet as [Qu|[-> Np]].
    { destruct ow, p; try (injection E as <- <-; exact Qu).
      (* Owned with a pointer: the native drop *)
      destruct (wi_own _ W _ _ _ N) as (a & c & -> & L & K).
      destruct k; try discriminate; apply plain_return in E; destruct E as (r0 & H & E & _ & ->);
        (eapply did_plain; eauto using fewer_refl, fewer_forget; [noset|]; cbn [gives_away]; intros b [Q|[]]; injection Q as <-;
         eexists; eexists; split; [exact N|]; rewrite forget_nth, Nat.eqb_refl, N; reflexivity). }
    destruct p as [p|]; [|congruence]. destruct (wi_own _ W _ _ _ N) as (a & c & -> & L & K).
    destruct k; try discriminate; apply plain_return in E; destruct E as (r0 & H & E & _ & ->);
      (eapply did_plain; eauto using fewer_refl, fewer_forget; [noset|]; cbn [gives_away]; intros b [Q|[]]; injection Q as <-;
       eexists; eexists; split; [exact N|]; rewrite forget_nth, Nat.eqb_refl, N; reflexivity).
  - (* BorrowBaseline *) apply use_return in E. destruct E as (p & ow & N & E). injection E as <- <-. constructor; cbn [wh ww].
    + apply (winv_view w); auto. destruct mut; discriminate.
    + intros i x Nx. left. rewrite nth_error_app1; [exact Nx|]. apply nth_error_Some. congruence.
    + now left.
  - (* FixedObjectCreate *)
    apply typed_return in E. destruct E as (p1 & o1 & N1 & E). apply typed_return in E. destruct E as (p2 & o2 & N2 & E). apply typed_return in E. destruct E as (p3 & o3 & N3 & E).
    apply typed_return in E. destruct E as (p4 & o4 & N4 & E). apply typed_return in E. destruct E as (p5 & o5 & N5 & E). cbn [wr_own] in E.
    destruct (is_shared o2); [discriminate|]. destruct (is_owned o3 && is_owned o4 && is_owned o5)%bool eqn:Ow; cbn [negb] in E; [|discriminate].
    apply andb_prop in Ow. destruct Ow as [Ow Ow5]. apply andb_prop in Ow. destruct Ow as [Ow3 Ow4].
    destruct o3; try discriminate. destruct o4; try discriminate. destruct o5; try discriminate.
    apply inner_return in E. destruct E as (q1 & _ & E). apply inner_return in E. destruct E as (q2 & _ & E). apply inner_return in E. destruct E as (q3 & Q3 & E).
    apply inner_return in E. destruct E as (q4 & Q4 & E). apply inner_return in E. destruct E as (q5 & Q5 & E). cbn [wr_inner] in Q3, Q4, Q5. subst p3 p4 p5.
    apply wrap_return in E. destruct E as (q & H & E & -> & ->).
    eapply did_wrap; eauto using fewer_refl, fewer_forget; [noset| | |congruence].
    + cbn [gives_away]. intros x Hin. 
      assert (D1 : str_0 <> oh_0) by (intros ->; congruence). assert (D2 : str_0 <> ch_0) by (intros ->; congruence). assert (D3 : oh_0 <> ch_0) by (intros ->; congruence).
      destruct Hin as [->|[->|[->|[]]]].
      * exists str_0, (WVal TString). split; [exact N3|]. rewrite !forget_nth. rewrite Nat.eqb_refl.
        destruct (Nat.eqb_spec ch_0 str_0); [congruence|]. destruct (Nat.eqb_spec oh_0 str_0); [congruence|]. rewrite N3. reflexivity.
      * exists oh_0, (WVal TObjectHandle). split; [exact N4|]. rewrite !forget_nth. rewrite Nat.eqb_refl.
        destruct (Nat.eqb_spec ch_0 oh_0); [congruence|]. destruct (Nat.eqb_spec str_0 oh_0); [congruence|]. rewrite N4. reflexivity.
      * exists ch_0, (WVal TContractDataHandle). split; [exact N5|]. rewrite !forget_nth. rewrite Nat.eqb_refl.
        destruct (Nat.eqb_spec oh_0 ch_0); [congruence|]. destruct (Nat.eqb_spec str_0 ch_0); [congruence|]. rewrite N5. reflexivity.
    + intros _. cbn [step] in E. destruct (contract_at (wh w) q1); [|discriminate]. destruct (base_at (wh w) q2) as [[[? ?] ?]|]; [|discriminate].
      destruct (owned_val (wh w) TString q3) as [[? ?]|]; [|discriminate]. destruct (owned_val (wh w) TObjectHandle q4) as [[? ?]|]; [|discriminate].
      destruct (owned_val (wh w) TContractDataHandle q5) as [[? ?]|]; [|discriminate].
      destruct (object_create _ _ _ _) as [[oi| |] ?]; try discriminate. apply (new_box_kind _ (CVal (VObjectHandle oi))) in E. exact E.
  - (* ForeignHandle *) apply wrap_return in E. destruct E as (q & H & E & -> & ->).
    eapply did_wrap; eauto using fewer_refl; [reflexivity|none| |congruence]. intros _. cbn [step] in E. apply (new_box_kind _ (CVal (VObjectHandle o))) in E. exact E.
Qed.

(** ** Exceptions *)
Lemma typed_throw w i k f e w' : typed w i k f = Throw e w' ->
  exists p o, nth_error (ww w) i = Some (mkWr k p o) /\ f (mkWr k p o) = Throw e w'.
Proof.
  unfold typed. destruct (nth_error (ww w) i) as [[k' p o]|] eqn:E; [|discriminate]. cbn [wr_kind].
  destruct (wkind_eqb k' k) eqn:K; [|discriminate]. apply wkind_eqb_eq in K. subst k'. eauto.
Qed.
Lemma inner_throw w x f e w' : inner w x f = Throw e w' -> (wr_inner x = None /\ e = InvalidOperation /\ w' = w) \/ exists p, wr_inner x = Some p /\ f p = Throw e w'.
Proof. unfold inner. destruct (wr_inner x); [right; eauto|]. intros E. injection E as <- <-. auto. Qed.
Lemma wrap_throw k o ws x e w' : wrap k o ws x <> Throw e w'.
Proof. unfold wrap. destruct x as [[]| |]; discriminate. Qed.
Lemma plain_throw ws x e w' : plain ws x <> Throw e w'.
Proof. unfold plain. destruct x as [[]| |]; discriminate. Qed.

(** ** Programs *)
Lemma keep_trans (ws ws1 ws2 : list wrapper) :
  (forall i x, nth_error ws i = Some x -> nth_error ws1 i = Some x \/ nth_error ws1 i = Some (null x)) ->
  (forall i x, nth_error ws1 i = Some x -> nth_error ws2 i = Some x \/ nth_error ws2 i = Some (null x)) ->
  forall i x, nth_error ws i = Some x -> nth_error ws2 i = Some x \/ nth_error ws2 i = Some (null x).
Proof. intros A B i x E. destruct (A _ _ E) as [Q|Q]; destruct (B _ _ Q) as [Q'|Q']; auto. Qed.
