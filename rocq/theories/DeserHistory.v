(** Every baseline under construction by a deserializer is the baseline of an
    ordinary client history. *)
From Verif Require Import RecordProofs PropertiesRecord DeserFinish Provenance.
Open Scope list_scope.
Open Scope nat_scope.

Section Values.
(** A property of the values. *)
Variable Q : dynprop -> Prop.

(** [b] is what a disciplined client history leaves, [s] the map of records; its values
    have the property [Q]. *)
Definition hist (k : baseline_kind) (b : baseline) (s : rstate) : Prop :=
  exists ops rs, crun (baseline_new k) ops = (rs, b) /\ existsb is_panic rs = false /\
    all_disciplined rs_empty ops rs /\ rfinal rs_empty ops rs = s /\
    forall t h v, st_at b t h = Some v -> Q v.

Lemma hist_new k : hist k (baseline_new k) rs_empty.
Proof. exists [], []. do 4 (split; [reflexivity || exact I|]). intros t h v H. rewrite st_at_look in H. discriminate H. Qed.

Lemma crun_snoc ops : forall b rs b1 op r b2,
  crun b ops = (rs, b1) -> existsb is_panic rs = false -> cstep b1 op = (r, b2) ->
  crun b (ops ++ [op]) = (rs ++ [r], b2) /\ length rs = length ops.
Proof.
  induction ops as [|o ops IH]; intros b rs b1 op r b2 H Hp Hs; cbn [crun app] in *.
  - injection H as <- <-. rewrite Hs. destruct (is_panic r); auto.
  - destruct (cstep b o) as [r0 b0]. destruct (is_panic r0) eqn:Ep.
    + injection H as <- <-. cbn in Hp. rewrite Ep in Hp. discriminate.
    + destruct (crun b0 ops) as [rs0 b0'] eqn:E. injection H as <- <-. cbn in Hp. rewrite Ep in Hp.
      destruct (IH _ _ _ _ _ _ E Hp Hs) as [-> Hl]. cbn. rewrite Hl. auto.
Qed.
Lemma rfinal_snoc ops : forall s rs op r, length rs = length ops ->
  rfinal s (ops ++ [op]) (rs ++ [r]) = rnext (rfinal s ops rs) op r.
Proof.
  induction ops as [|o ops IH]; intros s [|r0 rs] op r Hl; cbn in Hl; try discriminate; cbn; auto.
Qed.
Lemma disciplined_snoc ops : forall s rs op r, length rs = length ops ->
  all_disciplined s ops rs -> disciplined (rfinal s ops rs) op -> all_disciplined s (ops ++ [op]) (rs ++ [r]).
Proof.
  induction ops as [|o ops IH]; intros s [|r0 rs] op r Hl; cbn in Hl; try discriminate; cbn [app all_disciplined rfinal]; auto.
  intros [H1 H2] H3. split; auto.
Qed.

Lemma hist_rrel k b s : hist k b s -> exists fs fc, rrel b s fs fc.
Proof. intros [ops [rs [H1 [H2 [H3 [<- _]]]]]]. eapply rfinal_rrel; eauto using rrel_empty. Qed.
Lemma hist_values k b s : hist k b s -> forall t h v, st_at b t h = Some v -> Q v.
Proof. intros [ops [rs [_ [_ [_ [_ H]]]]]]. exact H. Qed.
Definition good_values (op : rop) : Prop :=
  match op with RCreate _ _ vs _ => Forall Q vs | RSet _ v => Q v | _ => True end.
Lemma hist_step k b s op r b' :
  hist k b s -> disciplined s op -> good_values op -> cstep b op = (r, b') -> is_panic r = false -> hist k b' (rnext s op r).
Proof.
  intros Hh Hd Hq Hs Hp.
  assert (Hv : forall t h v, st_at b' t h = Some v -> Q v).
  { destruct (hist_rrel _ _ _ Hh) as [fs [fc Hr]]. pose proof (hist_values _ _ _ Hh) as Hold.
    pose proof (as_bop_step _ _ _ _ Hs Hp) as Hb. destruct (as_bop op) as [bo|] eqn:E; [|subst; exact Hold].
    destruct Hb as [r' [Hb Hnp]].
    destruct (bstep_values _ _ _ _ (rr_inv _ _ _ _ Hr) (as_bop_ok _ _ _ _ _ _ Hr Hd E) Hb Hnp) as [V _].
    intros t h v H. destruct (V _ _ _ H) as [H'|H']; [eauto|].
    destruct op; try discriminate; injection E as <-; cbn in H', Hq; try contradiction.
    - rewrite Forall_forall in Hq. auto.
    - destruct H' as [<-|[]]. exact Hq. }
  destruct Hh as [ops [rs [H1 [H2 [H3 [<- _]]]]]].
  destruct (crun_snoc _ _ _ _ _ _ _ H1 H2 Hs) as [E Hl].
  exists (ops ++ [op]), (rs ++ [r]). split; auto. split.
  - rewrite existsb_app, H2. cbn. rewrite Hp. reflexivity.
  - split; [apply disciplined_snoc; auto|]. split; [apply rfinal_snoc; auto|exact Hv].
Qed.

(** ** The builder *)
Variable fb : fb_baseline.
Hypothesis Q_decoded : forall n fv contracts v,
  buf_state fb n = Some fv -> decode contracts fv = Ok (DVal v) -> Q v.
Hypothesis Q_handle : forall o, Q (PPrim (VObjectHandle o)).

Definition holds (cs : list contract_inst) (d : builder) (s : rstate) : Prop :=
  (forall h C, rs_con s h = Some C <-> (h = ci_handle (d_null d) /\ C = NullContract) \/ In (mkCinst C h) cs) /\
  (forall c, In c cs -> ci_handle c <> ci_handle (d_null d)) /\ d_fb d = fb.

Lemma builder_new_hist k d : builder_new fb k = Ok d ->
  exists s, hist k (d_base d) s /\ holds [] d s.
Proof.
  unfold builder_new.
  destruct (register_contract (baseline_new k) NullContract) as [r b1] eqn:E1.
  destruct r as [c|e|]; try discriminate.
  assert (Hc : ci_ty c = NullContract).
  { destruct (rec_register _ _ _ _ _ _ _ (rrel_empty k) E1) as [[H _]|[h [H _]]]; [discriminate|].
    injection H as ->. reflexivity. }
  destruct c as [C h]. cbn in Hc. subst C.
  destruct (object_create b1 (mkCinst NullContract h) [] []) as [r b2] eqn:E2.
  destruct r as [o|e|]; try discriminate. intros H. injection H as <-.
  assert (H1 : hist k b1 (rnext rs_empty (RRegister NullContract) (Ok (YHandle h)))).
  { eapply hist_step; [apply hist_new|exact I|exact I| |reflexivity]. cbn [cstep]. unfold on_fst. rewrite E1. reflexivity. }
  eexists. split.
  - cbn [d_base]. eapply (hist_step _ _ _ (RCreate NullContract h [] []) (Ok (YHandle o))); [exact H1| |constructor| |reflexivity].
    + split; [|constructor]. cbn. rewrite upd_eq. congruence.
    + cbn [cstep]. unfold on_fst. rewrite E2. reflexivity.
  - split; [|split; [intros c []|reflexivity]]. cbn [d_null ci_handle rnext rs_con]. intros h' C'. destruct (index_eq_dec h h') as [<-|Hn].
    + rewrite upd_eq. split; [intros H; injection H as <-; auto|intros [[_ ->]|[]]; auto].
    + rewrite upd_neq by auto. cbn. split; [discriminate|]. intros [[H _]|[]]. congruence.
Qed.

Lemma builder_register_hist cs k d s C r d' :
  hist k (d_base d) s -> holds cs d s -> builder_register d C = (r, d') -> r <> Panic ->
  match r with
  | Ok c => exists s', hist k (d_base d') s' /\ holds (cs ++ [c]) d' s'
  | _ => exists s', hist k (d_base d') s' /\ holds cs d' s'
  end.
Proof.
  intros Hh Hc. unfold builder_register.
  destruct (find_serialized_contract (d_fb d) C) as [idx|e|].
  2:{ intros H _. injection H as <- <-. eauto. }
  2:{ intros H Hp. injection H as <- <-. congruence. }
  destruct (register_contract (d_base d) C) as [rc b1] eqn:Er.
  destruct (hist_rrel _ _ _ Hh) as [fs [fc Hr]].
  destruct (rec_register _ _ _ _ _ _ _ Hr Er) as [[-> [-> _]]|[h [-> [Hu [Hno _]]]]].
  { intros H _. injection H as <- <-. exists s. destruct d; auto. }
  cbn [ci_handle]. destruct (bm_fresh _ _ _ _ _); intros H Hp; injection H as <- <-; [|congruence].
  exists (rnext s (RRegister C) (Ok (YHandle h))). cbn [d_base]. split.
  - eapply hist_step; [exact Hh|exact I|exact I| |reflexivity]. cbn [cstep]. unfold on_fst. rewrite Er. reflexivity.
  - destruct Hc as [Hc [Hn Hfb]].
    assert (Hne : h <> ci_handle (d_null d)).
    { intros ->. rewrite (proj2 (Hc _ NullContract)) in Hno; [discriminate|auto]. }
    split; [|split; [|exact Hfb]]; cbn [d_null rnext rs_con].
    + intros h' C'. rewrite in_app_iff. cbn [In]. destruct (index_eq_dec h h') as [<-|Hn'].
      * rewrite upd_eq. split; [intros H; injection H as <-; auto|].
        intros [[H _]|[H|[H|[]]]]; [congruence| |congruence].
        rewrite (proj2 (Hc h C')) in Hno; [discriminate|auto].
      * rewrite upd_neq by auto. rewrite Hc. split; [tauto|]. intros [H|[H|[H|[]]]]; auto. congruence.
    + intros c. rewrite in_app_iff. intros [H|[<-|[]]]; auto.
Qed.

Lemma builds_hist k cs d : builds fb k cs d -> exists s, hist k (d_base d) s /\ holds cs d s.
Proof.
  induction 1 as [d Hn|cs d C c d' Hb [s [Hh Hc]] Hr|cs d C e d' Hb [s [Hh Hc]] Hr].
  - eapply builder_new_hist; eauto.
  - apply (builder_register_hist _ _ _ _ _ _ _ Hh Hc Hr). discriminate.
  - apply (builder_register_hist _ _ _ _ _ _ _ Hh Hc Hr). discriminate.
Qed.

(** ** The objects *)
Definition dhist (k : baseline_kind) (cs : list contract_inst) (d : deser) (s : rstate) : Prop :=
  hist k (d_base (ds_b d)) s /\ holds cs (ds_b d) s /\
  forall n h, In (n, h) (ds_states d) -> exists o i, is_bound (rs_bound s) tobj h o i.

Lemma build_props_ids c d : forall l refs ps ns refs',
  (forall id n, In (id, n) l -> exists i, ci_state_id c i = Some id) ->
  build_props d refs l = (Ok (ps, ns), refs') ->
  forall id n, In (id, n) ns -> (exists i, ci_state_id c i = Some id) /\ pid_type id = tobj.
Proof.
  induction l as [|[id0 s0] l IH]; intros refs ps ns refs' Hl E; cbn [build_props] in E.
  - injection E as <- <- <-. intros id n [].
  - assert (Hl' : forall id n, In (id, n) l -> exists i, ci_state_id c i = Some id) by (intros; eapply Hl; right; eauto).
    destruct (fb_states (d_fb d)) as [states|]; [|discriminate].
    destruct (nth_error states (N.to_nat s0)) as [v|]; [|discriminate].
    destruct (decode (d_contracts d) v) as [[p|oi]|e|]; try discriminate.
    + destruct (build_props d refs l) as [[[ps1 ns1]|e|] refs1] eqn:E1; try discriminate.
      injection E as <- <- <-. eapply IH; eauto.
    + destruct (existsb _ refs); [discriminate|].
      destruct (ptype_eqb_spec (pid_type id0) (TPrim TObjectHandle)) as [Ht|Ht]; cbn [negb] in E; [|discriminate].
      destruct (build_props d _ l) as [[[ps1 ns1]|e|] refs1] eqn:E1; try discriminate.
      injection E as <- <- <-. intros id n [H|H].
      * injection H as <- <-. split; auto. eapply Hl; left; reflexivity.
      * eapply IH; eauto.
Qed.

Lemma build_props_good d : d_fb d = fb -> forall l refs ps ns refs',
  build_props d refs l = (Ok (ps, ns), refs') -> Forall Q ps.
Proof.
  intros Hfb. induction l as [|[id0 s0] l IH]; intros refs ps ns refs' E; cbn [build_props] in E.
  - injection E as <- <- <-. constructor.
  - rewrite Hfb in E. destruct (fb_states fb) as [states|] eqn:Es; [|discriminate].
    destruct (nth_error states (N.to_nat s0)) as [v|] eqn:En; [|discriminate].
    destruct (decode (d_contracts d) v) as [[p|oi]|e|] eqn:Ed; try discriminate.
    + destruct (build_props d refs l) as [[[ps1 ns1]|e|] refs1] eqn:E1; try discriminate.
      injection E as <- <- <-. constructor; [|eapply IH; eauto].
      eapply (Q_decoded (N.to_nat s0)); [|exact Ed]. unfold buf_state. rewrite Es. exact En.
    + destruct (existsb _ refs); [discriminate|]. destruct (negb _); [discriminate|].
      destruct (build_props d _ l) as [[[ps1 ns1]|e|] refs1] eqn:E1; try discriminate.
      injection E as <- <- <-. constructor; [apply Q_handle|eapply IH; eauto].
Qed.

Lemma track_nulls_hist k c b o : forall ns st s r st',
  hist k b s -> rs_con s (ci_handle c) = Some (ci_ty c) ->
  (forall id n, In (id, n) ns -> (exists i, ci_state_id c i = Some id) /\ pid_type id = tobj) ->
  (forall n h, In (n, h) st -> exists o i, is_bound (rs_bound s) tobj h o i) ->
  track_nulls b o ns st = (r, st') -> r <> Panic ->
  exists s', hist k b s' /\ rs_con s' = rs_con s /\
    (forall n h, In (n, h) st' -> exists o i, is_bound (rs_bound s') tobj h o i).
Proof.
  induction ns as [|[id n] ns IH]; intros st s r st' Hh Hc Hi Hs E Hp; cbn [track_nulls] in E.
  - injection E as <- <-. eauto.
  - destruct (bind_state b id o) as [h|e|] eqn:Eb; try (injection E as <- <-; congruence).
    destruct (Hi id n (or_introl eq_refl)) as [[i Ei] Et].
    destruct (bm_fresh Nat.eqb index_eqb n h st) eqn:Ef.
    2:{ injection E as <- <-. eauto. }
    rewrite (bm_insert_fresh _ _ _ _ _ Ef) in E.
    assert (Hh' : hist k b (rnext s (RBind (ci_ty c) (ci_handle c) i o) (Ok (YBound tobj h)))).
    { eapply hist_step; [exact Hh| |exact I| |reflexivity].
      - cbn. congruence.
      - cbn [cstep]. destruct c as [C hc]. cbn [ci_ty ci_handle]. rewrite Ei, Eb, Et. reflexivity. }
    destruct (fun A B D => IH _ _ _ _ Hh' A B D E Hp) as [s' [H1 [H2 H3]]].
    + exact Hc.
    + intros id' n' H. apply (Hi id' n'). right; auto.
    + intros n' h' H. apply in_app_or in H. destruct H as [H|[H|[]]].
      * destruct (Hs _ _ H) as [o' [i' H']]. exists o', i'. right. exact H'.
      * injection H as <- <-. exists o, i. left. reflexivity.
    + exists s'. split; auto.
Qed.

Lemma holds_con cs d s s' : rs_con s' = rs_con s -> holds cs d s -> holds cs d s'.
Proof. intros E [H1 H2]. split; auto. rewrite E. exact H1. Qed.

Lemma state_ids_ci c id : In id (state_ids (ci_ty c) (ci_handle c)) -> exists i, ci_state_id c i = Some id.
Proof.
  intros H. apply In_nth_error in H. destruct H as [i H]. exists i.
  rewrite state_ids_nth in H. exact H.
Qed.

Lemma deserialize_obj_hist k cs d s c j o r d' :
  dhist k cs d s -> In c cs -> deserialize_obj d c j o = (r, d') -> r <> Panic ->
  exists s', dhist k cs d' s'.
Proof.
  intros Hd Hin. unfold deserialize_obj.
  match goal with |- (if ?c then _ else _) = _ -> _ => destruct c end.
  { intros H Hp. injection H as <- <-. congruence. }
  match goal with |- context [build_props ?d ?r ?l] => destruct (build_props d r l) as [[[ps ns]|e|] refs] eqn:Eb end.
  2:{ intros H Hp. injection H as <- <-. exists s. exact Hd. }
  2:{ intros H Hp. injection H as <- <-. congruence. }
  destruct Hd as [Hh [Hc Hs]].
  destruct (object_create (d_base (ds_b d)) c ps []) as [ro b1] eqn:Eo.
  assert (Hcon : rs_con s (ci_handle c) = Some (ci_ty c)).
  { apply Hc. right. destruct c; auto. }
  destruct (is_panic ro) eqn:Hpo.
  { destruct ro; try discriminate. intros H Hp. injection H as <- <-. congruence. }
  assert (Hh1 : hist k b1 (rnext s (RCreate (ci_ty c) (ci_handle c) ps []) (omap YHandle ro))).
  { eapply hist_step; [exact Hh| | | |].
    - split; [congruence|constructor].
    - cbn. eapply build_props_good; [|exact Eb]. apply Hc.
    - cbn [cstep]. unfold on_fst. destruct c as [C h]. cbn [ci_ty ci_handle]. rewrite Eo. reflexivity.
    - destruct ro; auto. }
  destruct ro as [oh|e|]; [| |discriminate]; cbn [omap] in Hh1.
  2:{ intros H _. injection H as <- <-. exists s. split; [exact Hh1|]. split; auto. }
  set (s1 := rnext s (RCreate (ci_ty c) (ci_handle c) ps []) (Ok (YHandle oh))) in *.
  destruct (track_nulls b1 oh ns (ds_states d)) as [rt st] eqn:Et.
  assert (Hrt : rt <> Panic -> exists s', hist k b1 s' /\ rs_con s' = rs_con s1 /\
     (forall n h, In (n, h) st -> exists o i, is_bound (rs_bound s') tobj h o i)).
  { intros Hp. eapply (track_nulls_hist k c); eauto.
    eapply build_props_ids; [|exact Eb].
    intros id n H. apply in_combine_l in H. apply state_ids_ci. exact H. }
  assert (Hall : rt <> Panic -> forall refs objs, exists s', dhist k cs (mkDeser (with_base (ds_b d) b1) st refs objs) s').
  { intros Hp refs0 objs. destruct (Hrt Hp) as [s' [K1 [K2 K3]]]. exists s'. split; [exact K1|]. split; [|exact K3].
    apply (holds_con cs _ s); auto. }
  destruct rt as [[]|e|].
  - destruct (bm_fresh _ _ _ _ _); intros H Hp; injection H as <- <-; [|congruence].
    apply Hall. discriminate.
  - intros H Hp. injection H as <- <-. apply Hall. discriminate.
  - intros H Hp. injection H as <- <-. congruence.
Qed.

Lemma deserialize_each_hist k cs c : forall l d s r d',
  dhist k cs d s -> In c cs -> deserialize_each d c l = (r, d') -> r <> Panic -> exists s', dhist k cs d' s'.
Proof.
  induction l as [|i l IH]; intros d s r d' Hd Hin E Hp; cbn [deserialize_each] in E.
  - injection E as <- <-. eauto.
  - destruct (validate_obj (ds_b d) c i) as [o|e|]; try (injection E as <- <-; eauto; fail).
    destruct (deserialize_obj d c i o) as [r1 d1] eqn:E1.
    destruct r1 as [u|e|].
    + destruct (deserialize_obj_hist _ _ _ _ _ _ _ _ _ Hd Hin E1) as [s1 Hd1]; [discriminate|]. eapply IH; eauto.
    + injection E as <- <-. eapply deserialize_obj_hist; eauto.
    + injection E as <- <-. congruence.
Qed.

Lemma deserialize_objects_hist k cs d s c r d' :
  dhist k cs d s -> In c cs -> deserialize_objects d c = (r, d') -> r <> Panic -> exists s', dhist k cs d' s'.
Proof.
  intros Hd Hin. unfold deserialize_objects.
  destruct (bm_right _ _ _) as [cidx|]; [|intros H Hp; injection H as <- <-; congruence].
  destruct (fb_objects _) as [objs|]; [|intros H Hp; injection H as <- <-; eauto].
  intros E Hp. eapply deserialize_each_hist; eauto.
Qed.

Lemma deserializes_hist k cs tried done d :
  deserializes fb k cs tried done d -> exists s, dhist k cs d s.
Proof.
  induction 1 as [d Hb|tried done d c d' H [s Hd] Hc E|tried done d c e d' H [s Hd] Hc E].
  - destruct (builds_hist _ _ _ Hb) as [s [H1 H2]]. exists s. split; [exact H1|]. split; [exact H2|]. intros n h [].
  - eapply deserialize_objects_hist; eauto. discriminate.
  - eapply deserialize_objects_hist; eauto. discriminate.
Qed.

(** ** The end *)
Lemma restore_refs_hist k refs objs : forall ord b s b' u,
  hist k b s -> (forall n h, In (n, h) ord -> exists o i, is_bound (rs_bound s) tobj h o i) ->
  restore_refs refs objs b ord = (Ok u, b') ->
  exists s', hist k b' s' /\ rs_con s' = rs_con s /\ rs_mem s' = rs_mem s.
Proof.
  induction ord as [|[n h] ord IH]; intros b s b' u Hh Hs E; cbn [restore_refs] in E.
  - injection E as <- <-. eauto.
  - destruct (ref_of refs n) as [oi|]; [|discriminate].
    destruct (bm_right Nat.eqb oi objs) as [oh|]; [|discriminate].
    destruct (state_set b h (PPrim (VObjectHandle oh))) as [r b1] eqn:Es.
    destruct r as [u1|e|]; try discriminate.
    assert (Hh1 : hist k b1 (rnext s (RSet h (PPrim (VObjectHandle oh))) (Ok YUnit))).
    { eapply hist_step; [exact Hh| |apply Q_handle| |reflexivity].
      - cbn. apply (Hs n h). left; reflexivity.
      - cbn [cstep]. unfold on_fst. rewrite Es. reflexivity. }
    assert (Hx : rs_con (rnext s (RSet h (PPrim (VObjectHandle oh))) (Ok YUnit)) = rs_con s /\
                 rs_mem (rnext s (RSet h (PPrim (VObjectHandle oh))) (Ok YUnit)) = rs_mem s /\
                 rs_bound (rnext s (RSet h (PPrim (VObjectHandle oh))) (Ok YUnit)) = rs_bound s).
    { cbn [rnext]. destruct (lookup_bound _ _ _) as [[o i]|]; auto. }
    destruct Hx as [X1 [X2 X3]].
    destruct (fun A => IH _ _ _ _ Hh1 A E) as [s' [K1 [K2 K3]]].
    + rewrite X3. intros n' h' H. apply (Hs n' h'). right; auto.
    + exists s'. split; auto. split; congruence.
Qed.

Lemma finishes_hist k cs tried done d b' :
  deserializes fb k cs tried done d -> finishes d (Ok b') ->
  exists s, hist k b' s /\ forall h C, rs_con s h = Some C <-> In (mkCinst C h) cs.
Proof.
  intros Hd [ord [ordn [Hp [Hpn E]]]].
  destruct (deserializes_hist _ _ _ _ _ Hd) as [s [Hh [[Hc [Hn _]] Hs]]].
  unfold deser_finish in E.
  destruct (restore_refs (ds_refs d) (ds_objects d) (d_base (ds_b d)) ord) as [r b1] eqn:Er.
  destruct r as [u|e|]; try discriminate.
  destruct (unregister_contract b1 NullContract (ci_handle (d_null (ds_b d))) ordn) as [r b2] eqn:Eu.
  destruct r as [u2|e|]; try discriminate. injection E as <-.
  destruct (fun A => restore_refs_hist _ _ _ _ _ _ _ _ Hh A Er) as [s1 [H1 [H2 H3]]].
  { intros n h H. apply (Hs n h). eapply Permutation_in; [exact Hp|exact H]. }
  destruct (hist_rrel _ _ _ Hh) as [fs [fc Hr]].
  exists (rnext s1 (RUnregister NullContract (ci_handle (d_null (ds_b d))) ordn) (Ok YUnit)). split.
  - eapply hist_step; [exact H1| |exact I| |reflexivity].
    + cbn. intros _. rewrite H3.
      pose proof (rr_con _ _ _ _ Hr (ci_handle (d_null (ds_b d)))) as Hcon.
      rewrite (proj2 (Hc _ NullContract)) in Hcon by auto.
      destruct Hcon as [cd [Hg [Hid Hm]]]. rewrite <- Hm. apply Hpn. exact Hg.
    + cbn [cstep]. unfold on_fst. rewrite Eu. reflexivity.
  - intros h C. cbn [rnext rs_con]. rewrite H2. destruct (index_eq_dec (ci_handle (d_null (ds_b d))) h) as [<-|Hne].
    + rewrite upd_eq. split; [discriminate|]. intros H. destruct (Hn _ H eq_refl).
    + rewrite upd_neq by auto. rewrite Hc. split; [|auto]. intros [[H _]|H]; auto. congruence.
Qed.
End Values.
