(** What one call of the C API may do to the native heap. *)
From Verif Require Export CApiProofs.
Open Scope nat_scope.

Record bext (b b' : baseline) : Prop := {
  bx_obj : forall o ob, obj_at b o = Some ob -> obj_at b' o = Some ob;
  bx_st : forall t h v, tm_look (b_states b) t h = Some v -> tm_look (b_states b') t h = Some v;
  bx_kind : b_kind b' = b_kind b
}.
Lemma bext_refl b : bext b b. Proof. constructor; auto. Qed.

Definition registered (b : baseline) : Prop := exists h, con_at b h <> None.
Record hinv (H : heap) : Prop := {
  hi_base : forall a b e, look H a = Some (CBase b e) -> exinv b;
  hi_con : forall a c, look H a = Some (CCon c) -> ci_ty c = Example
}.

Inductive change (H : heap) (c : call) (a : nat) : option cell -> option cell -> Prop :=
| ch_same x : change H c a x x
| ch_freed x : change H c a x None
| ch_new y : a = length H -> change H c a None (Some y)
| ch_base b e b' e' : bext b b' -> (registered b' <-> registered b \/ c = ExampleContract__register (PBox a)) -> change H c a (Some (CBase b e)) (Some (CBase b' e'))
| ch_set b e b' t h p va v : c = State__value_set t (PState a e true t h) p -> owned_val H t p = Some (va, v) ->
    state_set b h (PPrim v) = (Ok tt, b') -> change H c a (Some (CBase b e)) (Some (CBase b' e))
| ch_st t v p w : c = State__value_set t (PBox a) p -> change H c a (Some (CSt t v)) (Some (CSt t w)).

Lemma hinv_alloc H c : hinv H -> (forall b e, c = CBase b e -> exinv b) -> (forall ci, c = CCon ci -> ci_ty ci = Example) -> hinv (H ++ [Some c]).
Proof.
  intros I Hb Hc. constructor.
  - intros a b e L. destruct (look_alloc_cases _ _ _ _ L) as [L'|[_ L']]; [eapply hi_base; eauto|symmetry in L'; eauto].
  - intros a b L. destruct (look_alloc_cases _ _ _ _ L) as [L'|[_ L']]; [eapply hi_con; eauto|symmetry in L'; eauto].
Qed.
Lemma hinv_free H a : hinv H -> hinv (free H a).
Proof.
  intros I. constructor.
  - intros x b e L. apply look_free_some in L. eapply hi_base; [eauto|apply L].
  - intros x b L. apply look_free_some in L. eapply hi_con; [eauto|apply L].
Qed.
Lemma hinv_put H a d c : hinv H -> look H a = Some d -> (forall b e, c = CBase b e -> exinv b) -> (forall ci, c = CCon ci -> ci_ty ci = Example) -> hinv (put H a c).
Proof.
  intros I L Hb Hc. constructor.
  - intros x b e. rewrite (look_put _ _ _ _ _ L). destruct (Nat.eqb a x); [intros E; injection E as ->; eauto|eapply hi_base; eauto].
  - intros x ci. rewrite (look_put _ _ _ _ _ L). destruct (Nat.eqb a x); [intros E; injection E as ->; eauto|eapply hi_con; eauto].
Qed.
Lemma free_length H a : length (free H a) = length H.
Proof. unfold free. apply list_set_length. Qed.
Lemma put_length H a c : length (put H a c) = length H.
Proof. unfold put. apply list_set_length. Qed.

Lemma change_alloc H0 H k c a : length H = length H0 -> change H0 k a (look H0 a) (look H a) -> change H0 k a (look H0 a) (look (H ++ [Some c]) a).
Proof.
  intros Hl Ch. destruct (Nat.lt_ge_cases a (length H)) as [L|L].
  - now rewrite look_app.
  - assert (N : look H0 a = None).
    { unfold look. rewrite (proj2 (nth_error_None H0 a)); [reflexivity|lia]. }
    rewrite N. unfold look. rewrite nth_error_app2 by lia. destruct (a - length H) as [|n] eqn:D.
    + cbn. apply ch_new. lia.
    + cbn. destruct n; constructor.
Qed.
Lemma change_free H0 H k a x : change H0 k x (look H0 x) (look H x) -> change H0 k x (look H0 x) (look (free H a) x).
Proof. intros Ch. rewrite look_free. destruct (Nat.eqb a x); [constructor|exact Ch]. Qed.

Definition is_base (c : cell) : bool := match c with CBase _ _ => true | _ => false end.
Ltac plain := first [discriminate | congruence].
Lemma new_box_done H c r H' : new_box H c = Done r H' <-> r = RPtr (PBox (length H)) /\ H' = H ++ [Some c].
Proof. unfold new_box, alloc. split; [intros E; injection E as <- <-; auto|intros [-> ->]; reflexivity]. Qed.
Lemma pull_alloc H k c r H' : hinv H -> is_base c = false -> (forall ci, c = CCon ci -> ci_ty ci = Example) ->
  new_box H c = Done r H' -> hinv H' /\ forall a, change H k a (look H a) (look H' a).
Proof.
  intros I B C E. apply new_box_done in E. destruct E as [_ ->]. split.
  - apply hinv_alloc; auto. intros b e ->. discriminate.
  - intros a. apply change_alloc; [reflexivity|constructor].
Qed.
Lemma same_ok H k : hinv H -> hinv H /\ forall a, change H k a (look H a) (look H a).
Proof. intros I. split; [exact I|constructor]. Qed.
Lemma bump_ok H k a b e : hinv H -> (forall p, k <> ExampleContract__register p) -> look H a = Some (CBase b e) ->
  hinv (put H a (CBase b (S e))) /\ forall x, change H k x (look H x) (look (put H a (CBase b (S e))) x).
Proof.
  intros I Nk L. split.
  - eapply hinv_put; eauto; [|discriminate]. intros b0 e0 E. injection E as <- <-. eapply hi_base; eauto.
  - intros x. rewrite (look_put _ _ _ _ _ L). destruct (Nat.eqb_spec a x) as [<-|]; [|constructor].
    rewrite L. constructor; [apply bext_refl|]. split; [auto|]. intros [R|R]; [exact R|now apply Nk in R].
Qed.

Lemma step_change H c r H' : hinv H -> step H c = Done r H' -> hinv H' /\ forall a, change H c a (look H a) (look H' a).
Proof.
  intros I E. destruct c; cbn [step] in E.
  - (* new *) apply new_box_done in E. destruct E as [_ ->]. split.
    + apply hinv_alloc; auto; [|discriminate]. intros b e E. injection E as <- <-. apply exinv_new.
    + intros a. apply change_alloc; [reflexivity|constructor].
  - destruct (base_at H b) as [[[a b0] e]|]; [|discriminate]. injection E as <- <-. split; [now apply hinv_free|].
    intros x. apply change_free. constructor.
  - destruct (base_at H b) as [[[a b0] e]|]; [|discriminate]. injection E as <- <-. now apply same_ok.
  - destruct (base_at H b) as [[[a b0] e]|]; [|discriminate]. destruct (con_handle_at H h); [|discriminate].
    destruct (contract_data_of b0 i); try discriminate. injection E as <- <-. now apply same_ok.
  - destruct (base_at H b) as [[[a b0] e]|]; [|discriminate]. destruct (obj_handle_at H o); [|discriminate].
    destruct (object_of b0 i); try discriminate. injection E as <- <-. now apply same_ok.
  - destruct (base_at H b) as [[[a b0] e]|] eqn:B; [|discriminate]. destruct (obj_handle_at H o); [|discriminate].
    destruct (object_of b0 i); try discriminate. injection E as <- <-. apply base_at_some in B. apply bump_ok; [auto|discriminate|apply B].
  - destruct (base_at H b) as [[[a b0] e]|]; [|discriminate]. destruct (sh_at H t h); [|discriminate].
    destruct (state_get b0 (TPrim t) i); try discriminate. injection E as <- <-. now apply same_ok.
  - destruct (base_at H b) as [[[a b0] e]|] eqn:B; [|discriminate]. destruct (sh_at H t h); [|discriminate].
    destruct (state_get b0 (TPrim t) i); try discriminate. injection E as <- <-. apply base_at_some in B. apply bump_ok; [auto|discriminate|apply B].
  - destruct (base_at H b) as [[[a b0] e]|]; [|discriminate]. destruct (sid_at H t id); [|discriminate]. destruct (obj_handle_at H o); [|discriminate].
    destruct (bind_state b0 p i); try discriminate. eapply pull_alloc; eauto; [reflexivity|discriminate].
  - destruct d; try discriminate. destruct (borrowed H a e); [|discriminate]. destruct (contract_data_of b h); try discriminate.
    injection E as <- <-. now apply same_ok.
  - destruct i; try discriminate. destruct (borrowed H a e); [|discriminate]. destruct (contract_data_of b h); try discriminate.
    injection E as <- <-. now apply same_ok.
  - destruct i; try discriminate. destruct (borrowed H a e); [|discriminate]. destruct (contract_data_of b h); try discriminate.
    injection E as <- <-. now apply same_ok.
  - destruct (owned_val H t v) as [[a w]|]; [|discriminate]. apply new_box_done in E. destruct E as [_ ->]. split.
    + apply hinv_alloc; [now apply hinv_free|discriminate|discriminate].
    + intros x. apply change_alloc; [apply free_length|]. apply change_free. constructor.
  - destruct (state_ok H t s); [|discriminate]. injection E as <- <-. now apply same_ok.
  - destruct (state_ok H t s) eqn:So; [|discriminate]. cbn [negb] in E. destruct (owned_val H t v) as [[a w]|] eqn:Ow; [|discriminate].
    destruct s as [sa|ba e m t' h| | | | | |]; try discriminate.
    + injection E as <- <-. cbn [state_ok] in So. destruct (look H sa) as [[| | | | |t0 v0|]|] eqn:L; try discriminate.
      apply prim_eqb_eq in So. subst t0. split.
      * apply hinv_free. eapply hinv_put; eauto; discriminate.
      * intros x. apply change_free. rewrite (look_put _ _ _ _ _ L). destruct (Nat.eqb_spec sa x) as [<-|]; [|constructor].
        rewrite L. econstructor; reflexivity.
    + destruct m; [|discriminate]. destruct (borrowed H ba e) as [b|] eqn:B; [|discriminate]. apply borrowed_some in B.
      destruct (state_set b h (PPrim w)) as [[[]| |] b'] eqn:Ss; try discriminate. injection E as <- <-.
      cbn [state_ok] in So. apply andb_true_iff in So. destruct So as [So _]. apply prim_eqb_eq in So. subst t'. split.
      * apply hinv_free. eapply hinv_put; eauto; [|discriminate]. intros b1 e1 E1. injection E1 as <- <-.
        eapply (proj1 (set_ok _ _ _ _ (hi_base _ I _ _ _ B) Ss)).
      * intros x. apply change_free. rewrite (look_put _ _ _ _ _ B). destruct (Nat.eqb_spec ba x) as [<-|]; [|constructor].
        rewrite B. eapply ch_set; [reflexivity|eauto|eauto].
  - destruct (sid_at H t id); [|discriminate]. eapply pull_alloc; eauto; [reflexivity|discriminate].
  - destruct v; try discriminate; (eapply pull_alloc; cycle 3; [exact E|exact I|reflexivity|discriminate]).
  - destruct p; try discriminate. destruct (look H a) as [[]|]; try discriminate; injection E as <- <-;
      (split; [now apply hinv_free|intros x; apply change_free; constructor]).
  - destruct (val_at H p); [|discriminate]. injection E as <- <-. now apply same_ok.
  - (* register *) destruct (base_at H b) as [[[a b0] e]|] eqn:B; [|discriminate]. apply base_at_some in B. destruct B as [-> B].
    destruct (register_contract b0 Example) as [[c| |] b'] eqn:R; try discriminate. apply new_box_done in E. destruct E as [_ ->].
    destruct (register_ok _ _ _ (hi_base _ I _ _ _ B) R) as (X & T & Ob & St & K & Cn & _). split.
    + apply hinv_alloc; [|discriminate|intros ci Q; injection Q as <-; exact T]. eapply hinv_put; eauto; [|discriminate].
      intros b1 e1 Q; injection Q as <- <-. exact X.
    + intros x. apply change_alloc; [apply put_length|]. rewrite (look_put _ _ _ _ _ B). destruct (Nat.eqb_spec a x) as [<-|]; [|constructor].
      rewrite B. constructor; [constructor; [unfold obj_at; rewrite Ob; auto|rewrite St; auto|auto]|].
      split; [auto|]. intros _. eexists; exact Cn.
  - destruct (contract_at H c); [|discriminate]. eapply pull_alloc; eauto; [reflexivity|discriminate].
  - destruct c; try discriminate. destruct (contract_at H (PBox a)); [|discriminate]. injection E as <- <-. now apply same_ok.
  - destruct s; try discriminate. destruct (contract_at H (PBox a)); [|discriminate]. eapply pull_alloc; eauto; [reflexivity|discriminate].
  - (* create *) destruct (contract_at H c) as [ci|] eqn:Cc; [|discriminate]. destruct (base_at H b) as [[[a b0] e]|] eqn:B; [|discriminate].
    destruct (owned_val H TString str_0) as [[sa s]|]; [|discriminate]. destruct (owned_val H TObjectHandle oh_0) as [[oa oh]|]; [|discriminate].
    destruct (owned_val H TContractDataHandle ch_0) as [[ca ch]|]; [|discriminate].
    apply base_at_some in B. destruct B as [-> B]. apply contract_at_some in Cc. destruct Cc as (cb & -> & Cc).
    match type of E with context [object_create b0 ci ?vs []] => destruct (object_create b0 ci vs []) as [[o| |] b'] eqn:R end; try discriminate.
    apply new_box_done in E. destruct E as [_ ->].
    destruct (create_ok _ _ _ _ _ (hi_base _ I _ _ _ B) (hi_con _ I _ _ Cc) R) as (ob & Cr & X & _ & _ & Old & _ & _ & K & Cn). split.
    + apply hinv_alloc; [|discriminate|discriminate]. do 3 apply hinv_free. eapply hinv_put; eauto; [|discriminate].
      intros b1 e1 Q; injection Q as <- <-. exact X.
    + intros x. apply change_alloc; [now rewrite !free_length, put_length|]. do 3 apply change_free.
      rewrite (look_put _ _ _ _ _ B). destruct (Nat.eqb_spec a x) as [<-|]; [|constructor].
      rewrite B. constructor; [constructor; auto|].
      2:{ unfold registered. split; [intros [h Hh]; left; exists h; now apply Cn|]. intros [[h Hh]|R0]; [exists h; now apply Cn|discriminate]. }
      intros t h v. apply (is_old _ _ _ _ _ (cr_st _ _ _ _ _ _ _ Cr)).
  - destruct (base_at H b) as [[[a b0] e]|] eqn:B; [|discriminate]. destruct (owned_val H TObjectHandle o) as [[oa v]|]; [|discriminate].
    destruct v; try discriminate. apply base_at_some in B. destruct B as [-> B].
    rewrite (object_remove_spec b0 Example) in E by (apply bi_obj, ex_inv; eapply hi_base; eauto).
    unfold remove_result in E. destruct (get (b_objects b0) _); cbn in E; discriminate.
  - eapply pull_alloc; eauto; [reflexivity|discriminate].
  - destruct d; try discriminate. destruct (borrowed H a e); [|discriminate]. destruct (contract_data_of b h) as [cd| |]; try discriminate.
    injection E as <- <-. split; [apply hinv_alloc; [exact I|discriminate|discriminate]|].
    intros x. apply change_alloc; [reflexivity|constructor].
Qed.

Lemma reaches_hinv H : reaches H -> hinv H.
Proof.
  induction 1 as [|H c r H' _ IH E].
  - constructor; intros [|a]; discriminate.
  - exact (proj1 (step_change _ _ _ _ IH E)).
Qed.
Lemma session_reaches l H : session l H -> reaches H.
Proof. induction 1; econstructor; eauto. Qed.

(** ** Reading a field *)
Definition field_id (ci : contract_inst) (f : exfield) : prop_id :=
  mkPid (TPrim (exfield_prim f)) (exfield_idx f) (ci_handle ci).
Definition view (b : baseline) (ch o : index) (f : exfield) : option dynprim :=
  match obj_at b o with
  | Some ob =>
      if index_eqb ch (o_contract ob) then
        match nth_error (o_states ob) (exfield_idx f) with
        | Some h => match tm_look (b_states b) (TPrim (exfield_prim f)) h with Some (PPrim v) => Some v | _ => None end
        | None => None
        end
      else None
  | None => None
  end.

Lemma val_at_app H c p v : val_at H p = Some v -> val_at (H ++ [Some c]) p = Some v.
Proof.
  unfold val_at, borrowed. destruct p as [a| |[a|a e m t h| | | | | |]| | | | |a i]; try discriminate.
  1,2,4: destruct (look H a) as [x|] eqn:L; [|discriminate]; now rewrite (look_app_some _ _ _ _ L).
  destruct (look H a) as [x|] eqn:L; [|discriminate]; now rewrite (look_app_some _ _ _ _ L).
Qed.
Lemma obj_handle_app H c p v : obj_handle_at H p = Some v -> obj_handle_at (H ++ [Some c]) p = Some v.
Proof.
  unfold obj_handle_at. destruct (val_at H p) eqn:E; [|discriminate]. now rewrite (val_at_app _ _ _ _ E).
Qed.

(** Binding, given sound pointers. *)
Lemma bind_field_ok H c b o f k ca ci ba bb e oh :
  c = PBox ca -> look H ca = Some (CCon ci) -> b = PBox ba -> look H ba = Some (CBase bb e) -> obj_handle_at H o = Some oh ->
  bind_field H c b o f k =
    match bind_state bb (field_id ci f) oh with
    | Ok h => k (PBox (S (length H))) ((H ++ [Some (CSid (exfield_prim f) (field_id ci f))]) ++ [Some (CSh (exfield_prim f) h)])
    | _ => Abort
    end.
Proof.
  intros -> Lc -> Lb Ho. unfold bind_field. cbn [step contract_at]. rewrite Lc. cbn [with_ptr step contract_at]. rewrite Lc.
  unfold new_box at 1, alloc at 1. cbn [with_ptr step base_at]. fold (field_id ci f).
  rewrite (look_app_some _ _ _ _ Lb). rewrite (proj2 (sid_at_some _ _ _ (field_id ci f)) (ex_intro _ _ (conj eq_refl (look_new H _)))).
  rewrite (obj_handle_app _ _ _ _ Ho). destruct (bind_state bb (field_id ci f) oh); cbn [with_ptr]; try reflexivity.
  unfold new_box, alloc. cbn [with_ptr]. rewrite app_length. cbn [length]. now rewrite Nat.add_1_r.
Qed.

(** Binding succeeds only with sound pointers. *)
Lemma bind_field_inv H c b o f k r H' : bind_field H c b o f k = Done r H' ->
  exists ca ci ba bb e oh, c = PBox ca /\ look H ca = Some (CCon ci) /\ b = PBox ba /\ look H ba = Some (CBase bb e) /\
    obj_handle_at H o = Some oh.
Proof.
  unfold bind_field. cbn [step]. destruct c as [ca| | | | | | |]; try discriminate. destruct (contract_at H (PBox ca)) as [ci|] eqn:Cc; [|discriminate].
  cbn [with_ptr step]. rewrite Cc. apply contract_at_some in Cc. destruct Cc as (x & Q & Lc). injection Q as <-.
  unfold new_box at 1, alloc at 1. cbn [with_ptr step].
  set (K := H ++ _). destruct (base_at K b) as [[[ba bb] e]|] eqn:B; [|discriminate]. apply base_at_some in B. destruct B as [-> B].
  destruct (sid_at K _ _) as [id|] eqn:S; [|discriminate].
  destruct (obj_handle_at K o) as [oh|] eqn:O; [|discriminate]. intros _.
  exists ca, ci, ba, bb, e. subst K. destruct (look_alloc_cases _ _ _ _ B) as [B'|[_ Q]]; [|discriminate].
  exists oh. repeat split; auto. revert O. unfold obj_handle_at, val_at, borrowed.
  destruct o as [a| |[a|a e0 m t h| | | | | |]| | | | |a i]; try discriminate;
    (destruct (look (H ++ _) a) as [x|] eqn:L; [|discriminate]; destruct (look_alloc_cases _ _ _ _ L) as [L'|[_ ->]]; [now rewrite L'|discriminate]).
Qed.

Lemma bind_view bb ci oh f : exinv bb ->
  match bind_state bb (field_id ci f) oh with
  | Ok h => exists v, tm_look (b_states bb) (TPrim (exfield_prim f)) h = Some (PPrim v) /\ view bb (ci_handle ci) oh f = Some v
  | _ => view bb (ci_handle ci) oh f = None
  end.
Proof.
  intros X. pose proof (c08_bind_state_iff bb (field_id ci f) oh) as B.
  destruct (bind_state bb (field_id ci f) oh) as [h| |].
  - destruct (proj1 (B h) eq_refl) as (ob & Ho & Hc & Hn). unfold field_id in Hc, Hn. cbn [pid_contract pid_idx] in Hc, Hn.
    assert (F : field_at bb oh (exfield_idx f) (TPrim (exfield_prim f)) h).
    { exists ob. repeat split; auto. destruct f; reflexivity. }
    pose proof (ex_get _ X _ _ _ _ F) as G. destruct (tm_look (b_states bb) (TPrim (exfield_prim f)) h) as [w|] eqn:W; [|congruence].
    pose proof (bi_st_ty _ (ex_inv _ X) _ _ _ W) as T. destruct w as [v|]; [|destruct v; discriminate T]. exists v. split; [reflexivity|].
    unfold view. rewrite Ho, Hc. destruct (index_eqb_spec (o_contract ob) (o_contract ob)); [|congruence]. now rewrite Hn, W.
  - unfold view. destruct (obj_at bb oh) as [ob|] eqn:Ho; [|reflexivity]. destruct (index_eqb_spec (ci_handle ci) (o_contract ob)) as [Q|]; [|reflexivity].
    destruct (nth_error (o_states ob) (exfield_idx f)) as [h|] eqn:Hn; [|reflexivity].
    exfalso. specialize (B h). destruct B as [_ B]. discriminate (B (ex_intro _ ob (conj eq_refl (conj Q Hn)))).
  - unfold view. destruct (obj_at bb oh) as [ob|] eqn:Ho; [|reflexivity]. destruct (index_eqb_spec (ci_handle ci) (o_contract ob)) as [Q|]; [|reflexivity].
    destruct (nth_error (o_states ob) (exfield_idx f)) as [h|] eqn:Hn; [|reflexivity].
    exfalso. specialize (B h). destruct B as [_ B]. discriminate (B (ex_intro _ ob (conj eq_refl (conj Q Hn)))).
Qed.

Lemma read_field_ok H c b o f ca ci ba bb e oh : exinv bb ->
  c = PBox ca -> look H ca = Some (CCon ci) -> b = PBox ba -> look H ba = Some (CBase bb e) -> obj_handle_at H o = Some oh ->
  match view bb (ci_handle ci) oh f with
  | Some v => exists H', read_field H c b o f = Done (RVal v) H'
  | None => read_field H c b o f = Abort
  end.
Proof.
  intros X Ec Lc Eb Lb Ho. unfold read_field. rewrite (bind_field_ok _ _ _ _ _ _ _ _ _ _ _ _ Ec Lc Eb Lb Ho).
  pose proof (bind_view bb ci oh f X) as V. destruct (bind_state bb (field_id ci f) oh) as [h| |]; [|now rewrite V..].
  destruct V as (v & W & ->). subst b.
  set (K := _ ++ _). assert (LB : look K ba = Some (CBase bb e)) by (unfold K; now do 2 apply look_app_some).
  cbn [step base_at]. rewrite LB. rewrite (proj2 (sh_at_some K (exfield_prim f) (PBox (S (length H))) h)).
  2:{ exists (S (length H)). split; [reflexivity|]. unfold K. replace (S (length H)) with (length (H ++ [Some (CSid (exfield_prim f) (field_id ci f))])).
      - apply look_new. - rewrite app_length. cbn. lia. }
  rewrite (proj2 (state_get_ok bb _ h _) W). cbn [with_ptr step state_ok]. rewrite prim_eqb_refl.
  rewrite (proj2 (borrowed_some K ba e bb) LB), (proj2 (state_get_ok bb _ h _) W). cbn [is_ok andb with_ptr step val_at].
  rewrite (proj2 (borrowed_some K ba e bb) LB), (proj2 (state_get_ok bb _ h _) W). eauto.
Qed.

Definition points (H : heap) (c b o : ptr) (ci : contract_inst) (ba : nat) (bb : baseline) (oh : index) : Prop :=
  contract_at H c = Some ci /\ b = PBox ba /\ (exists e, look H ba = Some (CBase bb e)) /\ obj_handle_at H o = Some oh.

Lemma shows_char H c b o f v : hinv H ->
  shows H c b o f v <-> exists ci ba bb oh, points H c b o ci ba bb oh /\ view bb (ci_handle ci) oh f = Some v.
Proof.
  intros I. split.
  - intros [H' R]. pose proof R as R0. unfold read_field in R. apply bind_field_inv in R.
    destruct R as (ca & ci & ba & bb & e & oh & -> & Lc & -> & Lb & Ho).
    pose proof (read_field_ok H _ _ o f ca ci ba bb e oh (hi_base _ I _ _ _ Lb) eq_refl Lc eq_refl Lb Ho) as Q.
    exists ci, ba, bb, oh. split; [repeat split; eauto|].
    + cbn [contract_at]. now rewrite Lc.
    + destruct (view _ _ _ _) as [w|]; [|congruence]. destruct Q as [H2 Q]. congruence.
  - intros (ci & ba & bb & oh & (Cc & -> & (e & Lb) & Ho) & V). apply contract_at_some in Cc. destruct Cc as (ca & -> & Lc).
    pose proof (read_field_ok H _ _ o f ca ci ba bb e oh (hi_base _ I _ _ _ Lb) eq_refl Lc eq_refl Lb Ho) as Q.
    rewrite V in Q. exact Q.
Qed.

Lemma view_ext b b' ch o f v : bext b b' -> view b ch o f = Some v -> view b' ch o f = Some v.
Proof.
  intros X. unfold view. destruct (obj_at b o) as [ob|] eqn:Ho; [|discriminate]. rewrite (bx_obj _ _ X _ _ Ho).
  destruct (index_eqb ch (o_contract ob)); [|discriminate]. destruct (nth_error (o_states ob) (exfield_idx f)) as [h|]; [|discriminate].
  destruct (tm_look (b_states b) (TPrim (exfield_prim f)) h) as [w|] eqn:W; [|discriminate]. now rewrite (bx_st _ _ X _ _ _ W).
Qed.

(** Writing one state. *)
Lemma view_set b b' h0 v0 ch o f : exinv b -> state_set b h0 (PPrim v0) = (Ok tt, b') ->
  view b' ch o f =
    match view b ch o f with
    | Some v => if match obj_at b o with
                   | Some ob => match nth_error (o_states ob) (exfield_idx f) with
                                | Some h => tm_same (dynprim_type v0) h0 (TPrim (exfield_prim f)) h
                                | None => false end
                   | None => false end
                then Some v0 else Some v
    | None => None
    end.
Proof.
  intros X E. destruct (set_ok _ _ _ _ X E) as (X' & Ob & _ & _ & L). cbn [prop_type] in L. unfold view, obj_at. rewrite Ob.
  fold (obj_at b o). destruct (obj_at b o) as [ob|] eqn:Ho; [|reflexivity]. destruct (index_eqb ch (o_contract ob)); [|reflexivity].
  destruct (nth_error (o_states ob) (exfield_idx f)) as [h|] eqn:Hn; [|reflexivity].
  assert (F : field_at b o (exfield_idx f) (TPrim (exfield_prim f)) h).
  { exists ob. repeat split; auto. destruct f; reflexivity. }
  pose proof (ex_get _ X _ _ _ _ F) as G.
  rewrite L. destruct (tm_look (b_states b) (TPrim (exfield_prim f)) h) as [w|] eqn:W; [|congruence].
  pose proof (bi_st_ty _ (ex_inv _ X) _ _ _ W) as T. destruct w as [v|]; [|destruct v; discriminate T].
  destruct (tm_same (dynprim_type v0) h0 (TPrim (exfield_prim f)) h); reflexivity.
Qed.

Lemma exfield_idx_inj f g : exfield_idx f = exfield_idx g -> f = g.
Proof. destruct f, g; cbn; congruence. Qed.
Lemma view_field b ch o f v : view b ch o f = Some v ->
  exists ob h, obj_at b o = Some ob /\ ch = o_contract ob /\ nth_error (o_states ob) (exfield_idx f) = Some h /\
    tm_look (b_states b) (TPrim (exfield_prim f)) h = Some (PPrim v) /\ field_at b o (exfield_idx f) (TPrim (exfield_prim f)) h.
Proof.
  unfold view. destruct (obj_at b o) as [ob|] eqn:Ho; [|discriminate]. destruct (index_eqb_spec ch (o_contract ob)) as [Q|]; [|discriminate].
  destruct (nth_error (o_states ob) (exfield_idx f)) as [h|] eqn:Hn; [|discriminate].
  destruct (tm_look (b_states b) (TPrim (exfield_prim f)) h) as [[w|]|] eqn:W; try discriminate. intros E; injection E as ->.
  exists ob, h. repeat split; auto. exists ob. repeat split; auto. destruct f; reflexivity.
Qed.
