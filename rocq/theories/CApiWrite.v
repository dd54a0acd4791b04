(** Writing a field, creating an object, and what a session remembers. *)
From Verif Require Export CApiFrame.
Open Scope nat_scope.

Lemma state_set_ok b h v w t : exinv b -> tm_look (b_states b) t h = Some w -> prop_type v = t -> exists b', state_set b h v = (Ok tt, b').
Proof.
  intros X L T. destruct (state_set_spec b h v (ex_inv _ X)) as [[N _]|[_ (m & E & _)]]; [|eauto].
  rewrite T in N. congruence.
Qed.

Lemma write_field_ok H c b o f p ci ba bb oh v0 pa v : hinv H -> points H c b o ci ba bb oh ->
  view bb (ci_handle ci) oh f = Some v0 -> owned_val H (exfield_prim f) p = Some (pa, v) ->
  exists h b' H', bind_state bb (field_id ci f) oh = Ok h /\ state_set bb h (PPrim v) = (Ok tt, b') /\
    write_field H c b o f p = Done RUnit H' /\ hinv H' /\
    forall x, x < length H -> look H' x =
      if Nat.eqb pa x then None else if Nat.eqb ba x then match look H ba with Some (CBase _ e) => Some (CBase b' (S e)) | _ => None end else look H x.
Proof.
  intros I (Cc & -> & (e & Lb) & Ho) V Ow. pose proof (hi_base _ I _ _ _ Lb) as X.
  apply contract_at_some in Cc. destruct Cc as (ca & -> & Lc).
  pose proof (bind_view bb ci oh f X) as B. destruct (bind_state bb (field_id ci f) oh) as [h| |] eqn:Bs; [|congruence..].
  destruct B as (w & W & V'). assert (w = v0) by congruence. subst w.
  pose proof Ow as Ow'. apply owned_val_some in Ow'. destruct Ow' as (-> & Lp & Tp).
  destruct (state_set_ok bb h (PPrim v) _ _ X W Tp) as [b' Ss].
  assert (X' : exinv b') by exact (proj1 (set_ok _ _ _ _ X Ss)).
  set (K := (H ++ [Some (CSid (exfield_prim f) (field_id ci f))]) ++ [Some (CSh (exfield_prim f) h)]).
  assert (LB : look K ba = Some (CBase bb e)) by (unfold K; now do 2 apply look_app_some).
  assert (LP : look K pa = Some (CVal v)) by (unfold K; now do 2 apply look_app_some).
  assert (IK : hinv K) by (unfold K; do 2 (apply hinv_alloc; try discriminate); exact I).
  assert (Nq : Nat.eqb ba pa = false) by (apply Nat.eqb_neq; congruence).
  set (K1 := put K ba (CBase bb (S e))).
  assert (LB1 : look K1 ba = Some (CBase bb (S e))) by (unfold K1; rewrite (look_put _ _ _ _ _ LB), Nat.eqb_refl; reflexivity).
  assert (LP1 : look K1 pa = Some (CVal v)) by (unfold K1; now rewrite (look_put _ _ _ _ _ LB), Nq).
  assert (IK1 : hinv K1).
  { eapply hinv_put; [exact IK|exact LB| |discriminate]. intros b0 e0 Q; injection Q as <- <-; exact X. }
  exists h, b', (free (put K1 ba (CBase b' (S e))) pa). split; [reflexivity|split; [exact Ss|split; [|split]]].
  - unfold write_field. rewrite (bind_field_ok H (PBox ca) (PBox ba) o f _ ca ci ba bb e oh eq_refl Lc eq_refl Lb Ho), Bs. fold K. cbn [step base_at]. rewrite LB.
    rewrite (proj2 (sh_at_some K (exfield_prim f) (PBox (S (length H))) h)).
    2:{ exists (S (length H)). split; [reflexivity|]. unfold K. replace (S (length H)) with (length (H ++ [Some (CSid (exfield_prim f) (field_id ci f))])).
        - apply look_new. - rewrite app_length. cbn. lia. }
    rewrite (proj2 (state_get_ok bb _ h _) W). fold K1. cbn [with_ptr step state_ok]. rewrite prim_eqb_refl.
    rewrite (proj2 (borrowed_some K1 ba (S e) bb) LB1), (proj2 (state_get_ok bb _ h _) W). cbn [is_ok andb negb].
    rewrite (proj2 (owned_val_some K1 (exfield_prim f) (PBox pa) pa v) (conj eq_refl (conj LP1 Tp))). now rewrite Ss.
  - apply hinv_free. eapply hinv_put; [exact IK1|exact LB1| |discriminate]. intros b0 e0 Q; injection Q as <- <-; exact X'.
  - intros x Lx. rewrite look_free. destruct (Nat.eqb pa x); [reflexivity|]. rewrite (look_put _ _ _ _ _ LB1), Lb.
    destruct (Nat.eqb_spec ba x) as [<-|N]; [reflexivity|]. unfold K1. rewrite (look_put _ _ _ _ _ LB). destruct (Nat.eqb_spec ba x); [congruence|].
    unfold K. rewrite look_app by (rewrite app_length; cbn; lia). now apply look_app.
Qed.

Lemma look_length_some H a c : look H a = Some c -> a < length H.
Proof. apply look_lt. Qed.

Lemma keep_write H c b o f p ci ba bb oh v0 pa v h b' H' c1 b1 o1 ci1 ba1 bb1 oh1 :
  hinv H -> points H c b o ci ba bb oh -> view bb (ci_handle ci) oh f = Some v0 -> owned_val H (exfield_prim f) p = Some (pa, v) ->
  (forall x, x < length H -> look H' x =
      if Nat.eqb pa x then None else if Nat.eqb ba x then match look H ba with Some (CBase _ e) => Some (CBase b' (S e)) | _ => None end else look H x) ->
  state_set bb h (PPrim v) = (Ok tt, b') ->
  points H c1 b1 o1 ci1 ba1 bb1 oh1 -> held H o1 -> o1 <> p ->
  points H' c1 b1 o1 ci1 ba1 (if Nat.eqb ba ba1 then b' else bb1) oh1.
Proof.
  intros I P V Ow Lk Ss P1 Ho Np.
  destruct P as (_ & _ & (e & Lb) & _). apply owned_val_some in Ow. destruct Ow as (-> & Lp & _).
  destruct (points_box _ _ _ _ _ _ _ _ P1 Ho) as (ca1 & oa1 & e1 & -> & Lc1 & -> & Lb1 & -> & Lo1).
  assert (Lc' : look H' ca1 = Some (CCon ci1)).
  { rewrite Lk by (eapply look_lt; eauto). destruct (Nat.eqb_spec pa ca1); [congruence|]. destruct (Nat.eqb_spec ba ca1); [congruence|]. exact Lc1. }
  assert (Lo' : look H' oa1 = Some (CVal (VObjectHandle oh1))).
  { rewrite Lk by (eapply look_lt; eauto). destruct (Nat.eqb_spec pa oa1); [congruence|]. destruct (Nat.eqb_spec ba oa1); [congruence|]. exact Lo1. }
  assert (Lb' : exists e', look H' ba1 = Some (CBase (if Nat.eqb ba ba1 then b' else bb1) e')).
  { rewrite Lk by (eapply look_lt; eauto). destruct (Nat.eqb_spec pa ba1); [congruence|]. destruct (Nat.eqb_spec ba ba1) as [<-|]; [rewrite Lb; eauto|eauto]. }
  destruct Lb' as [e' Lb']. eapply box_points; eauto.
Qed.

(** What a session remembers of its baselines. *)
Record sinv (l : list (call * ret)) (H : heap) : Prop := {
  si_reg : forall a b e, look H a = Some (CBase b e) -> registered b <-> exists r, In (ExampleContract__register (PBox a), r) l;
  si_kind : forall a b e, look H a = Some (CBase b e) -> In (Baseline__new (b_kind b), RPtr (PBox a)) l;
  si_new : forall k a, In (Baseline__new k, RPtr (PBox a)) l -> forall b e, look H a = Some (CBase b e) -> b_kind b = k;
  si_lt : forall k a, In (Baseline__new k, RPtr (PBox a)) l -> a < length H;
  si_reglt : forall a r, In (ExampleContract__register (PBox a), r) l -> a < length H
}.

Lemma step_length H c r H' : step H c = Done r H' -> length H <= length H'.
Proof.
  destruct c; cbn [step];
  repeat match goal with
  | |- context [match ?x with _ => _ end] => destruct x; try discriminate
  end; intros E; try (apply new_box_done in E; destruct E as [_ ->]); try (injection E as _ <-); unfold free, put;
  rewrite ?app_length, ?list_set_length; lia.
Qed.

(** The contracts of a baseline change only by registering. *)
Lemma step_base H c r H' a b' e' : hinv H -> step H c = Done r H' -> look H' a = Some (CBase b' e') ->
  (exists k, c = Baseline__new k /\ r = RPtr (PBox a) /\ a = length H /\ b' = baseline_new k) \/
  exists b e, look H a = Some (CBase b e) /\ b_kind b' = b_kind b /\
    (registered b' <-> registered b \/ c = ExampleContract__register (PBox a)).
Proof.
  intros I E L'. destruct (step_change _ _ _ _ I E) as [I' Ch].
  destruct (Nat.lt_ge_cases a (length H)) as [La|La].
  2:{ (* a new box *)
      left. destruct c; cbn [step] in E;
      repeat match type of E with
      | context [match ?x with _ => _ end] => destruct x eqn:?; try discriminate
      end;
      try (injection E as _ <-; exfalso; unfold free, put in L'; apply look_lt in L'; rewrite ?list_set_length in L'; lia);
      try (injection E as _ <-; exfalso; apply look_alloc_cases in L'; destruct L' as [L'|[_ L']];
           [apply look_lt in L'; lia|discriminate L']);
      (apply new_box_done in E; destruct E as [-> ->]; apply look_alloc_cases in L'; destruct L' as [L'|[-> L']];
       [exfalso; apply look_lt in L'; unfold free, put in L'; rewrite ?list_set_length in L'; lia|]); try discriminate.
      injection L' as -> ->. exists k. unfold free, put. auto. }
  right. specialize (Ch a). rewrite L' in Ch. destruct (look H a) as [x0|] eqn:Q0; inversion Ch as [x Q|x Q|y Q1 Q2|b e b2 e2 Bx Rg Q1 Q2|b e b2 t h p va v Q Ow Ss Q1 Q2|]; subst; try lia.
  - (* unchanged *) exists b', e'. split; [reflexivity|split; [reflexivity|]]. split; [auto|]. intros [R|R]; [exact R|].
    subst c. exfalso. rename Q0 into Q. cbn [step base_at] in E. rewrite Q in E.
    destruct (register_contract b' Example) as [[ci| |] b2] eqn:R; try discriminate. apply new_box_done in E. destruct E as [_ ->].
    rewrite look_app in L' by (now rewrite put_length). rewrite (look_put _ _ _ _ _ Q), Nat.eqb_refl in L'. injection L' as _ X. clear - X. induction e'; congruence.
  - exists b, e. auto using bx_kind.
  - do 2 eexists. split; [reflexivity|]. destruct (set_ok _ _ _ _ (hi_base _ I _ _ _ Q0) Ss) as (_ & _ & Cn & K & _).
    split; [exact K|]. unfold registered, con_at. rewrite Cn. split; [auto|]. intros [R|R]; [exact R|discriminate].
Qed.

Lemma session_sinv l H : session l H -> sinv l H.
Proof.
  induction 1 as [|l H c r H' Se IH E].
  - constructor; cbn; try tauto; intros [|a]; discriminate.
  - pose proof (reaches_hinv _ (session_reaches _ _ Se)) as I. pose proof (step_length _ _ _ _ E) as Le.
    assert (Ptr : forall k a, c = Baseline__new k -> r = RPtr (PBox a) -> a = length H /\ length H' = S (length H)).
    { intros k a -> ->. cbn [step] in E. apply new_box_done in E. destruct E as [Q ->]. injection Q as ->. rewrite app_length. cbn. split; lia. }
    assert (Reg : forall a, c = ExampleContract__register (PBox a) -> a < length H).
    { intros a ->. cbn [step base_at] in E. destruct (look H a) as [[]|] eqn:L; try discriminate. eapply look_lt; eauto. }
    constructor.
    + intros a b' e' L. destruct (step_base _ _ _ _ _ _ _ I E L) as [(k & -> & -> & -> & ->)|(b & e & L0 & _ & Rg)].
      * split.
        -- intros [h Hh]. rewrite con_at_new in Hh. congruence.
        -- intros [r [Q|Q]]; [discriminate|]. apply (si_reglt _ _ IH) in Q. lia.
      * rewrite Rg, (si_reg _ _ IH _ _ _ L0). split.
        -- intros [[r0 Q]|Q]; [exists r0; now right|exists r; left; now rewrite Q].
        -- intros [r0 [Q|Q]]; [right; congruence|left; eauto].
    + intros a b' e' L. destruct (step_base _ _ _ _ _ _ _ I E L) as [(k & -> & -> & -> & ->)|(b & e & L0 & K & _)].
      * left. reflexivity.
      * right. rewrite K. exact (si_kind _ _ IH _ _ _ L0).
    + intros k a Hin b' e' L. destruct (step_base _ _ _ _ _ _ _ I E L) as [(k' & Ec & Er & -> & ->)|(b & e & L0 & K & _)].
      * destruct Hin as [Q|Q]; [subst c; injection Q as -> _; reflexivity|]. apply (si_lt _ _ IH) in Q. lia.
      * rewrite K. destruct Hin as [Q|Q].
        -- injection Q as Q1 Q2. destruct (Ptr _ _ Q1 Q2) as [-> _]. apply look_lt in L0. lia.
        -- exact (si_new _ _ IH _ _ Q _ _ L0).
    + intros k a [Q|Q]; [injection Q as Q1 Q2; destruct (Ptr _ _ Q1 Q2); lia|apply (si_lt _ _ IH) in Q; lia].
    + intros a r0 [Q|Q]; [injection Q as Q1 Q2; apply Reg in Q1; lia|apply (si_reglt _ _ IH) in Q; lia].
Qed.

(** ** Which boxes live *)
Definition live (H : heap) (x : nat) : bool := match look H x with Some _ => true | None => false end.
Lemma live_app H c x : live (H ++ [Some c]) x = live H x || Nat.eqb x (length H).
Proof.
  unfold live. destruct (Nat.eqb_spec x (length H)) as [->|N].
  - rewrite look_new. now rewrite orb_true_r.
  - rewrite orb_false_r. destruct (look H x) as [d|] eqn:L; [now rewrite (look_app_some _ _ _ _ L)|].
    destruct (look (H ++ [Some c]) x) as [d|] eqn:L'; [|reflexivity]. destruct (look_alloc_cases _ _ _ _ L') as [Q|[Q _]]; congruence.
Qed.
Lemma live_free H a x : live (free H a) x = live H x && negb (Nat.eqb a x).
Proof. unfold live. rewrite look_free. destruct (Nat.eqb a x); cbn; [now rewrite andb_false_r|now rewrite andb_true_r]. Qed.
Lemma live_put H a c d x : look H a = Some d -> live (put H a c) x = live H x.
Proof. intros L. unfold live. rewrite (look_put _ _ _ _ _ L). destruct (Nat.eqb_spec a x) as [<-|]; [now rewrite L|reflexivity]. Qed.
Lemma live_old H x : live H x = true -> x < length H.
Proof. unfold live. destruct (look H x) eqn:L; [intros _; eapply look_lt; eauto|discriminate]. Qed.
Lemma held_live H p : held H p <-> exists x, p = PBox x /\ live H x = true.
Proof.
  unfold held, live. split; intros (x & -> & L); exists x; (split; [reflexivity|]); destruct (look H x); congruence.
Qed.

Definition lives (c : call) (r : ret) (H : heap) (x : nat) : Prop :=
  (live H x = true /\ ~ In (PBox x) (gives_away c)) \/ r = RPtr (PBox x) \/ exists n, r = RVec x n.
Lemma lives_alt c r H x : (forall n, r <> RVec x n) ->
  (lives c r H x <-> (live H x = true /\ ~ In (PBox x) (gives_away c)) \/ r = RPtr (PBox x)).
Proof. intros N. unfold lives. split; [intros [L|[L|[n L]]]; [auto|auto|now apply N in L]|tauto]. Qed.
Lemma lives_same c r H x : gives_away c = [] -> (forall y, r <> RPtr (PBox y)) -> (forall n, r <> RVec x n) -> (live H x = true <-> lives c r H x).
Proof. intros G N V. rewrite lives_alt by exact V. rewrite G. cbn. split; [auto|]. intros [[L _]|Q]; [exact L|now apply N in Q]. Qed.
Lemma lives_new c r H d H' x : gives_away c = [] -> new_box H d = Done r H' -> (live H' x = true <-> lives c r H x).
Proof.
  intros G E. apply new_box_done in E. destruct E as [-> ->]. rewrite live_app. rewrite lives_alt by discriminate. rewrite G. cbn.
  rewrite orb_true_iff, Nat.eqb_eq. split; [intros [L| ->]; auto|]. intros [[L _]|Q]; [auto|right; congruence].
Qed.
Lemma step_lives H c r H' x : hinv H -> step H c = Done r H' -> (live H' x = true <-> lives c r H x).
Proof.
  intros I E. destruct c; cbn [step] in E.
  - eapply lives_new; eauto.
  - destruct (base_at H b) as [[[a b0] e]|] eqn:B; [|discriminate]. injection E as <- <-. apply base_at_some in B. destruct B as [-> B].
    rewrite live_free. rewrite lives_alt by discriminate. cbn. rewrite andb_true_iff, negb_true_iff, Nat.eqb_neq.
    split; [intros [L N]; left; split; [auto|]; intros [Q|[]]; congruence|]. intros [[L N]|Q]; [|discriminate]. split; [auto|]. intros ->. apply N. now left.
  - destruct (base_at H b) as [[[a b0] e]|]; [|discriminate]. injection E as <- <-. apply lives_same; [reflexivity|discriminate|discriminate].
  - destruct (base_at H b) as [[[a b0] e]|]; [|discriminate]. destruct (con_handle_at H h); [|discriminate].
    destruct (contract_data_of b0 i); try discriminate. injection E as <- <-. apply lives_same; [reflexivity|discriminate|discriminate].
  - destruct (base_at H b) as [[[a b0] e]|]; [|discriminate]. destruct (obj_handle_at H o); [|discriminate].
    destruct (object_of b0 i); try discriminate. injection E as <- <-. apply lives_same; [reflexivity|discriminate|discriminate].
  - destruct (base_at H b) as [[[a b0] e]|] eqn:B; [|discriminate]. destruct (obj_handle_at H o); [|discriminate].
    destruct (object_of b0 i); try discriminate. injection E as <- <-. apply base_at_some in B. destruct B as [-> B].
    rewrite (live_put _ _ _ _ _ B). apply lives_same; [reflexivity|discriminate|discriminate].
  - destruct (base_at H b) as [[[a b0] e]|]; [|discriminate]. destruct (sh_at H t h); [|discriminate].
    destruct (state_get b0 (TPrim t) i); try discriminate. injection E as <- <-. apply lives_same; [reflexivity|discriminate|discriminate].
  - destruct (base_at H b) as [[[a b0] e]|] eqn:B; [|discriminate]. destruct (sh_at H t h); [|discriminate].
    destruct (state_get b0 (TPrim t) i); try discriminate. injection E as <- <-. apply base_at_some in B. destruct B as [-> B].
    rewrite (live_put _ _ _ _ _ B). apply lives_same; [reflexivity|discriminate|discriminate].
  - destruct (base_at H b) as [[[a b0] e]|]; [|discriminate]. destruct (sid_at H t id); [|discriminate]. destruct (obj_handle_at H o); [|discriminate].
    destruct (bind_state b0 p i); try discriminate. eapply lives_new; eauto.
  - destruct d; try discriminate. destruct (borrowed H a e); [|discriminate]. destruct (contract_data_of b h); try discriminate.
    injection E as <- <-. apply lives_same; [reflexivity|discriminate|discriminate].
  - destruct i; try discriminate. destruct (borrowed H a e); [|discriminate]. destruct (contract_data_of b h); try discriminate.
    injection E as <- <-. apply lives_same; [reflexivity|discriminate|discriminate].
  - destruct i; try discriminate. destruct (borrowed H a e); [|discriminate]. destruct (contract_data_of b h); try discriminate.
    injection E as <- <-. apply lives_same; [reflexivity|discriminate|discriminate].
  - destruct (owned_val H t v) as [[a w]|] eqn:Ow; [|discriminate]. apply owned_val_some in Ow. destruct Ow as (-> & Lo & _).
    apply new_box_done in E. destruct E as [-> ->]. rewrite live_app, live_free, free_length. rewrite lives_alt by discriminate. cbn.
    rewrite orb_true_iff, andb_true_iff, negb_true_iff, Nat.eqb_neq, Nat.eqb_eq.
    split.
    + intros [[L N]| ->]; [left; split; [auto|intros [Q|[]]; congruence]|auto].
    + intros [[L N]|Q]; [left; split; [auto|intros ->; apply N; now left]|right; congruence].
  - destruct (state_ok H t s) eqn:So; [|discriminate]. injection E as <- <-. apply lives_same; [reflexivity|discriminate|discriminate].
  - destruct (state_ok H t s) eqn:So; [|discriminate]. cbn [negb] in E. destruct (owned_val H t v) as [[a w]|] eqn:Ow; [|discriminate].
    apply owned_val_some in Ow. destruct Ow as (-> & Lo & _).
    assert (G : exists K, H' = free K a /\ r = RUnit /\ live K x = live H x).
    { destruct s as [sa|ba e m t' h| | | | | |]; try discriminate.
      - injection E as <- <-. eexists. split; [reflexivity|split; [reflexivity|]]. cbn [state_ok] in So. destruct (look H sa) as [d|] eqn:L; [|discriminate]. eapply live_put; eauto.
      - destruct m; [|discriminate]. destruct (borrowed H ba e) as [b|] eqn:B; [|discriminate]. apply borrowed_some in B.
        destruct (state_set b h (PPrim w)) as [[[]| |] b'] eqn:Ss; try discriminate. injection E as <- <-. eexists. split; [reflexivity|split; [reflexivity|]]. eapply live_put; eauto. }
    destruct G as (K & -> & -> & G). rewrite live_free, G. rewrite lives_alt by discriminate. cbn. rewrite andb_true_iff, negb_true_iff, Nat.eqb_neq.
    split; [intros [L N]; left; split; [auto|]; intros [Q|[]]; congruence|]. intros [[L N]|Q]; [|discriminate]. split; [auto|]. intros ->. apply N. now left.
  - destruct (sid_at H t id); [|discriminate]. eapply lives_new; eauto.
  - destruct v; try discriminate; (eapply lives_new; [reflexivity|exact E]).
  - destruct p; try discriminate. assert (Q : r = RUnit /\ H' = free H a) by (destruct (look H a) as [[]|]; try discriminate; injection E as <- <-; auto).
    destruct Q as [-> ->]. rewrite live_free. rewrite lives_alt by discriminate. cbn. rewrite andb_true_iff, negb_true_iff, Nat.eqb_neq.
    split; [intros [L N]; left; split; [auto|]; intros [Q|[]]; congruence|]. intros [[L N]|Q]; [|discriminate]. split; [auto|]. intros ->. apply N. now left.
  - destruct (val_at H p); [|discriminate]. injection E as <- <-. apply lives_same; [reflexivity|discriminate|discriminate].
  - destruct (base_at H b) as [[[a b0] e]|] eqn:B; [|discriminate]. apply base_at_some in B. destruct B as [-> B].
    destruct (register_contract b0 Example) as [[c| |] b'] eqn:R; try discriminate. apply new_box_done in E. destruct E as [-> ->].
    rewrite live_app, (live_put _ _ _ _ _ B), put_length. rewrite lives_alt by discriminate. cbn. rewrite orb_true_iff, Nat.eqb_eq.
    split; [intros [L| ->]; auto|]. intros [[L _]|Q]; [auto|right; congruence].
  - destruct (contract_at H c); [|discriminate]. eapply lives_new; eauto.
  - destruct c; try discriminate. destruct (contract_at H (PBox a)); [|discriminate]. injection E as <- <-. apply lives_same; [reflexivity|discriminate|discriminate].
  - destruct s; try discriminate. destruct (contract_at H (PBox a)); [|discriminate]. eapply lives_new; eauto.
  - destruct (contract_at H c) as [ci|] eqn:Cc; [|discriminate]. destruct (base_at H b) as [[[a b0] e]|] eqn:B; [|discriminate].
    destruct (owned_val H TString str_0) as [[sa s]|] eqn:Os; [|discriminate]. destruct (owned_val H TObjectHandle oh_0) as [[oa oh]|] eqn:Oo; [|discriminate].
    destruct (owned_val H TContractDataHandle ch_0) as [[ca ch]|] eqn:Oc; [|discriminate].
    apply base_at_some in B. destruct B as [-> B].
    apply owned_val_some in Os. destruct Os as (-> & Os & Ts). apply owned_val_some in Oo. destruct Oo as (-> & Oo & To).
    apply owned_val_some in Oc. destruct Oc as (-> & Oc & Tc).
    match type of E with context [object_create b0 ci ?vs []] => destruct (object_create b0 ci vs []) as [[o| |] b'] eqn:R end; try discriminate.
    apply new_box_done in E. destruct E as [-> ->].
    rewrite live_app, !live_free, (live_put _ _ _ _ _ B), !free_length, put_length. rewrite lives_alt by discriminate. cbn.
    rewrite orb_true_iff, !andb_true_iff, !negb_true_iff, !Nat.eqb_neq, Nat.eqb_eq. split.
    + intros [[[[L N1] N2] N3]| ->]; [|auto]. left. split; [exact L|]. intros [Q|[Q|[Q|[]]]]; congruence.
    + intros [[L N]|Q]; [|right; congruence]. left. split; [split; [split; [exact L|]|]|]; intros ->; apply N; tauto.
  - exfalso. destruct (base_at H b) as [[[a b0] e]|] eqn:B; [|discriminate]. destruct (owned_val H TObjectHandle o) as [[oa v]|]; [|discriminate].
    destruct v; try discriminate. apply base_at_some in B. destruct B as [-> B].
    rewrite (object_remove_spec b0 Example) in E by (apply bi_obj, ex_inv, (hi_base _ I _ _ _ B)).
    unfold remove_result in E. destruct (get (b_objects b0) _); cbn in E; discriminate.
  - eapply lives_new; eauto.
  - destruct d; try discriminate. destruct (borrowed H a e); [|discriminate]. destruct (contract_data_of b h) as [cd| |]; try discriminate.
    injection E as <- <-. rewrite live_app, orb_true_iff, Nat.eqb_eq. unfold lives. cbn [gives_away].
    split; [intros [L| ->]; [left; split; [exact L|intros []]|right; right; eauto]|].
    intros [[L _]|[Q|[n Q]]]; [auto|discriminate|injection Q as -> _; auto].
Qed.
