(** C60: collactions are never invented, copied or changed by the engine, and a
    program outside the crate can never submit one. *)
From Verif Require Import Engine Clients PropertiesEngine.
From Coq Require Import Permutation Lia.
Open Scope nat_scope.
Open Scope list_scope.

(** ** Specification *)

(** The collactions inside an engine: queued, or being applied. *)
Definition inside (s : sys) : list collaction :=
  map snd (s_queue s) ++ match s_phase s with Busy c _ => [c] | Idle => [] end.
Definition inside_o (o : option sys) : list collaction := match o with Some s => inside s | None => [] end.
(** All collactions that exist. *)
Definition everywhere (w : world) : list collaction := w_owned w ++ flat_map inside_o (w_engines w).

(** The collactions built by code inside the crate. *)
Fixpoint made (tr : list event) : list collaction :=
  match tr with [] => [] | EMake c :: t => c :: made t | _ :: t => made t end.
(** The events at which a collaction can end: it is dropped, its engine is
    dropped, or a panic unwinds through the apply. *)
Definition ends_some (e : event) : Prop :=
  match e with ELose _ | EDropEngine _ | EUnwind _ => True | _ => False end.
Definition edits (e : event) : Prop := match e with EEdit _ _ => True | _ => False end.
(** What happens at an engine that no collaction ever reaches. *)
Definition no_traffic (l : label) : Prop :=
  match l with LNoRecv _ | LTick _ | LRealm _ | LClone | LDrop => True | _ => False end.

(** ** Proofs *)

Definition minv (c : collaction) (m : mach) : Prop :=
  match m with
  | MApply done todo => c = done ++ todo
  | MReverse todo seen rest => c = rev (seen ++ todo) ++ rest
  | MDone x => cresult_actions x = c
  | MPanic => True
  end.
Definition sinv (s : sys) : Prop := match s_phase s with Idle => True | Busy c m => minv c m end.

Lemma apply_action_same r a x r' a' : apply_action r a = (x, r', a') -> a' = a.
Proof.
  destruct a; cbn; try (intros E; injection E as <- <- <-; reflexivity);
  destruct (dyn_state_get _ _); try destruct (ref_eqb _ _); intros E; injection E as <- <- <-; reflexivity.
Qed.
Lemma reverse_action_same r a x r' a' : reverse_action r a = (x, r', a') -> a' = a.
Proof.
  unfold reverse_action. destruct (kind a); try (intros E; injection E as <- <- <-; reflexivity).
  destruct (apply_action r a) as [[y r1] a1] eqn:Ea. apply apply_action_same in Ea. subst a1.
  destruct y; intros E; injection E as <- <- <-; reflexivity.
Qed.
Lemma mstep_minv c r m r' m' : minv c m -> mstep r m = (r', m') -> minv c m'.
Proof.
  destruct m as [done [|a t]|[|a t] seen rest|x|]; cbn.
  - intros -> E. injection E as <- <-. cbn. now rewrite app_nil_r.
  - intros -> E. destruct (apply_action r a) as [[y r1] a1] eqn:Ea. apply apply_action_same in Ea. subst a1.
    destruct y; injection E as <- <-; cbn; auto.
    + now rewrite <- app_assoc.
    + rewrite rev_involutive, <- app_assoc. reflexivity.
  - intros -> E. injection E as <- <-. cbn. now rewrite app_nil_r.
  - intros -> E. destruct (reverse_action r a) as [[y r1] a1] eqn:Ea. apply reverse_action_same in Ea. subst a1.
    destruct y; injection E as <- <-; cbn; auto. now rewrite <- app_assoc.
  - intros H E. injection E as <- <-. exact H.
  - intros H E. injection E as <- <-. exact H.
Qed.

(** One step of an engine: what it takes from the client is inside afterwards,
    what it gives was inside before. *)
Lemma step_inside s l s' : sinv s -> step s l s' ->
  sinv s' /\ Permutation (takes l ++ inside s) (gives l ++ inside s').
Proof.
  unfold sinv, inside. intros Hi Hs. destruct Hs; cbn [s_phase s_queue takes gives app]; split; auto.
  - rewrite map_app. cbn [map snd]. rewrite <- app_assoc. apply Permutation_middle.
  - cbn. reflexivity.
  - rewrite H, H0. cbn. rewrite app_nil_r. apply Permutation_cons_append.
  - cbn. reflexivity.
  - rewrite H1, H. cbn. reflexivity.
  - rewrite H in Hi. eapply mstep_minv; eauto.
  - rewrite H. reflexivity.
  - rewrite H in *. cbn [minv] in Hi. rewrite Hi, app_nil_r. apply Permutation_sym, Permutation_cons_append.
  - rewrite H. reflexivity.
  - rewrite H. reflexivity.
Qed.

Definition winv (w : world) : Prop := forall s, In (Some s) (w_engines w) -> sinv s.
Lemma winv_mid o o' es1 x es2 y : (forall s, y = Some s -> sinv s) ->
  winv (mkWorld o (es1 ++ x :: es2)) -> winv (mkWorld o' (es1 ++ y :: es2)).
Proof.
  intros Hy Hw s Hs. cbn in *. apply in_app_or in Hs. destruct Hs as [Hs|[Hs|Hs]]; auto;
  apply Hw; cbn; apply in_or_app; cbn; auto.
Qed.

Section Keeps.
Variables (Y : Type) (f : collaction -> Y) (okE : event -> Prop).
Hypothesis edit_ok : forall c c', okE (EEdit c c') -> length c' = length c -> f c' = f c.

Lemma wstep_keeps w e w' : winv w -> okE e -> wstep w e w' -> winv w' /\
  exists gone, (~ ends_some e -> gone = []) /\
    Permutation (map f (everywhere w' ++ gone)) (map f (made [e] ++ everywhere w)).
Proof using edit_ok.
  intros Hw Hk Hs. destruct Hs; unfold everywhere in *; cbn [w_owned w_engines made app] in *.
  - split; [exact Hw|]. exists []. split; auto. rewrite app_nil_r. reflexivity.
  - split; [exact Hw|]. exists []. split; auto. rewrite app_nil_r, <- !app_assoc, !map_app. cbn.
    rewrite (edit_ok _ _ Hk H). reflexivity.
  - split; [exact Hw|]. exists [c]. split; [intros N; contradict N; exact I|].
    apply Permutation_map. rewrite <- !app_assoc. cbn.
    apply Permutation_app_head. rewrite app_assoc. apply Permutation_sym, Permutation_cons_append.
  - split; [intros s Hs; cbn in Hs; apply in_app_or in Hs; destruct Hs as [Hs|[Hs|[]]]; [now apply Hw|]|].
    + injection Hs as <-. exact I.
    + exists []. split; auto. rewrite app_nil_r, flat_map_app. cbn. rewrite app_nil_r. reflexivity.
  - split; [eapply winv_mid; [|exact Hw]; intros ? D; discriminate D|].
    exists (inside s). split; [intros N; contradict N; exact I|].
    apply Permutation_map. rewrite !flat_map_app. cbn. rewrite <- !app_assoc.
    do 2 apply Permutation_app_head. apply Permutation_app_comm.
  - assert (Hsi : sinv s) by (apply Hw; cbn; apply in_or_app; cbn; auto).
    destruct (step_inside _ _ _ Hsi H) as [Hi' Hp]. split.
    + eapply winv_mid; [|exact Hw]. intros s0 E. injection E as <-. exact Hi'.
    + exists []. split; auto. rewrite app_nil_r. apply Permutation_map. subst o'.
      rewrite !flat_map_app. cbn.
      assert (A1 : forall (a b c d : list collaction), Permutation (a ++ b ++ c ++ d) ((a ++ c) ++ b ++ d)).
      { intros. rewrite <- app_assoc. apply Permutation_app_head. rewrite !app_assoc. apply Permutation_app_tail.
        apply Permutation_app_comm. }
      rewrite H1. rewrite <- !app_assoc.
      transitivity ((gives l ++ inside s') ++ rest ++ flat_map inside_o es1 ++ flat_map inside_o es2).
      { rewrite <- !app_assoc. apply Permutation_app_head. rewrite !app_assoc.
        transitivity ((inside s' ++ rest ++ flat_map inside_o es1) ++ flat_map inside_o es2).
        - apply Permutation_app_tail. apply Permutation_app_comm.
        - rewrite !app_assoc. reflexivity. }
      rewrite <- Hp. rewrite <- !app_assoc. apply Permutation_app_head. rewrite !app_assoc.
      apply Permutation_app_tail. rewrite <- app_assoc. apply Permutation_app_comm.
  - split; [eapply winv_mid; [|exact Hw]; intros s0 E; injection E as <-; exact I|].
    exists [c]. split; [intros N; contradict N; exact I|].
    apply Permutation_map. rewrite !flat_map_app. cbn. unfold inside. cbn [s_phase s_queue]. rewrite H, app_nil_r.
    rewrite <- !app_assoc. do 3 apply Permutation_app_head. apply Permutation_app_comm.
Qed.

Lemma wsteps_keeps w tr w' : winv w -> Forall okE tr -> wsteps w tr w' ->
  exists gone, ((forall e, In e tr -> ~ ends_some e) -> gone = []) /\
    Permutation (map f (everywhere w' ++ gone)) (map f (made tr ++ everywhere w)).
Proof using edit_ok.
  intros Hw Hk Hs. induction Hs as [w|w e w1 tr w2 H1 Hs IH].
  - exists []. split; auto. rewrite app_nil_r. reflexivity.
  - inversion Hk as [|? ? K1 K2]; subst. destruct (wstep_keeps _ _ _ Hw K1 H1) as (Hw1 & g1 & G1 & P1).
    destruct (IH Hw1 K2) as (g2 & G2 & P2). exists (g2 ++ g1). split.
    + intros A. rewrite G2, G1; auto; intros; apply A; cbn; auto.
    + replace (made (e :: tr)) with (made [e] ++ made tr) by (destruct e; reflexivity).
      rewrite !map_app in *. rewrite app_assoc, P2, <- !app_assoc, P1.
      rewrite !app_assoc. apply Permutation_app_tail. apply Permutation_app_comm.
Qed.
End Keeps.

Lemma nothing_inv : winv nothing.
Proof. intros s []. Qed.

(** ** Theorems *)

(** Whatever clients and engines do: the collactions that exist are those that
    were built in the crate, less those that ended, each with the same number of
    actions as it was built with. *)
Theorem C60_never_invented_or_copied :
  forall tr w, wsteps nothing tr w ->
    exists gone, Permutation (map (@length action) (everywhere w ++ gone)) (map (@length action) (made tr)) /\
      ((forall e, In e tr -> ~ ends_some e) -> gone = []).
Proof.
  intros tr w H.
  destruct (wsteps_keeps nat (@length action) (fun _ => True)) with (w := nothing) (tr := tr) (w' := w) as (g & G & P); auto.
  - apply nothing_inv.
  - apply Forall_forall. auto.
  - exists g. split; auto. rewrite P. cbn. rewrite app_nil_r. reflexivity.
Qed.
Print Assumptions C60_never_invented_or_copied.

(** And if the client does not edit them, they are the same collactions: no
    engine changes one, on acceptance, on rejection or while it is queued. *)
Theorem C60_engines_change_no_collaction :
  forall tr w, wsteps nothing tr w -> (forall e, In e tr -> ~ edits e) ->
    (exists gone, Permutation (everywhere w ++ gone) (made tr) /\
       ((forall e, In e tr -> ~ ends_some e) -> gone = [])) /\
    forall k x, In (EAct k (LReturn x)) tr -> In (cresult_actions x) (made tr).
Proof.
  assert (K : forall tr w, wsteps nothing tr w -> (forall e, In e tr -> ~ edits e) ->
    exists gone, Permutation (everywhere w ++ gone) (made tr) /\
       ((forall e, In e tr -> ~ ends_some e) -> gone = [])).
  { intros tr w H Hn.
    destruct (wsteps_keeps collaction (fun c => c) (fun e => ~ edits e)) with (w := nothing) (tr := tr) (w' := w) as (g & G & P); auto.
    - intros c c' N. contradict N. exact I.
    - apply nothing_inv.
    - apply Forall_forall. auto.
    - exists g. split; auto. rewrite !map_id in P. rewrite P. cbn. rewrite app_nil_r. reflexivity. }
  intros tr w H Hn. split; [now apply K|]. intros k x Hx.
  apply in_split in Hx. destruct Hx as (t1 & t2 & ->).
  assert (A : forall t1 w0 w2 t2, wsteps w0 (t1 ++ t2) w2 -> exists w1, wsteps w0 t1 w1 /\ wsteps w1 t2 w2).
  { clear. induction t1 as [|e t1 IH]; intros w0 w2 t2 H; [exists w0; split; [constructor|exact H]|].
    inversion H as [|? ? w1 ? ? H1 H2]; subst. destruct (IH _ _ _ H2) as (w3 & A & B). exists w3. split; auto.
    econstructor; eauto. }
  assert (M : forall t1 t2, made (t1 ++ t2) = made t1 ++ made t2).
  { clear. induction t1 as [|e t1 IH]; intros t2; [reflexivity|]. destruct e; cbn; rewrite IH; reflexivity. }
  rewrite (app_assoc t1 [_] t2) in H || (change (EAct k (LReturn x) :: t2) with ([EAct k (LReturn x)] ++ t2) in H; rewrite app_assoc in H).
  destruct (A _ _ _ _ H) as (w1 & H1 & _).
  destruct (K _ _ H1) as (g & P & _).
  { intros e He. apply Hn. apply in_app_or in He. apply in_or_app. destruct He as [He|[He|[]]]; cbn; auto. }
  rewrite M. clear H.
  assert (In (cresult_actions x) (w_owned w1)) as Ho.
  { destruct (A _ _ _ _ H1) as (w0 & _ & H2). inversion H2 as [|? ? ? ? ? S1 S2]; subst. inversion S2; subst.
    inversion S1; subst. cbn. auto. }
  apply in_or_app. left.
  assert (In (cresult_actions x) (made (t1 ++ [EAct k (LReturn x)]))) as Hm.
  { eapply Permutation_in; [exact P|]. apply in_or_app. left. unfold everywhere. apply in_or_app. auto. }
  rewrite M in Hm. cbn in Hm. rewrite app_nil_r in Hm. exact Hm.
Qed.
Print Assumptions C60_engines_change_no_collaction.

(** So a program outside the crate, which cannot build one, never has a
    collaction: nothing can be sent, and every apply of every engine it makes
    finds the queue empty. *)
Theorem C60_clients_can_submit_refuted :
  forall tr w, wsteps nothing tr w -> (forall c, ~ In (EMake c) tr) ->
    w_owned w = [] /\
    (forall s, In (Some s) (w_engines w) -> s_queue s = [] /\ s_phase s = Idle) /\
    (forall k l, In (EAct k l) tr -> no_traffic l) /\
    (forall c, ~ In (ELose c) tr) /\ (forall c c', ~ In (EEdit c c') tr) /\ (forall k, ~ In (EUnwind k) tr).
Proof.
  assert (A : forall tr w, (forall c, ~ In (EMake c) tr) -> wsteps nothing tr w -> everywhere w = []).
  { intros tr w Hn H. destruct (C60_never_invented_or_copied _ _ H) as (g & P & _).
    assert (made tr = []) as E.
    { clear - Hn. induction tr as [|e t IH]; [reflexivity|].
      destruct e; cbn; try (apply IH; intros c0 Hc; apply (Hn c0); cbn; auto).
      exfalso. apply (Hn c). cbn. auto. }
    rewrite E in P. apply Permutation_sym, Permutation_nil in P. rewrite map_app in P.
    apply app_eq_nil in P. destruct P as [P _]. apply map_eq_nil in P. exact P. }
  assert (B : forall w, everywhere w = [] -> w_owned w = [] /\ forall s, In (Some s) (w_engines w) -> s_queue s = [] /\ s_phase s = Idle).
  { clear. intros [o es] E. unfold everywhere in E. cbn in *. apply app_eq_nil in E. destruct E as [-> E]. split; auto.
    intros s Hs. assert (inside s = []) as Ei.
    { destruct (inside s) as [|c t] eqn:D; auto. exfalso.
      assert (In c (flat_map inside_o es)) as Hc by (apply in_flat_map; exists (Some s); cbn; rewrite D; cbn; auto).
      rewrite E in Hc. exact Hc. }
    unfold inside in Ei. apply app_eq_nil in Ei. destruct Ei as [E1 E2]. apply map_eq_nil in E1.
    destruct (s_phase s); [auto|discriminate E2]. }
  assert (St : forall w e w', wstep w e w' -> everywhere w = [] -> everywhere w' = [] -> (forall c, e <> EMake c) ->
     (forall k l, e = EAct k l -> no_traffic l) /\ (forall c, e <> ELose c) /\ (forall c c', e <> EEdit c c') /\ (forall k, e <> EUnwind k)).
  { intros w e w' Hs E E' Nm. destruct (B _ E) as [Bo Bs]. destruct (B _ E') as [Bo' _].
    destruct Hs; cbn [w_owned w_engines] in *; (split; [|split; [|split]]); try discriminate;
      try (apply app_eq_nil in Bo; destruct Bo; discriminate).
    - intros k0 l0 Ek. injection Ek as <- <-.
      assert (Hs : s_queue s = [] /\ s_phase s = Idle) by (apply Bs; apply in_or_app; cbn; auto).
      destruct Hs as [Q Ph]. subst o. destruct H; cbn in *; auto;
        try (exfalso; apply (H0 c); left; reflexivity).
      all: try (rewrite Q in *; discriminate); try (rewrite Ph in *; discriminate).
    - assert (Hs : s_queue s = [] /\ s_phase s = Idle) by (apply Bs; apply in_or_app; cbn; auto).
      destruct Hs as [_ Ph]. rewrite Ph in H. discriminate. }
  intros tr w H Hn.
  destruct (B w (A _ _ Hn H)) as [B1 B2]. split; [exact B1|]. split; [exact B2|].
  assert (Sp : forall e t1 t2, tr = t1 ++ e :: t2 -> exists w0 w1, wstep w0 e w1 /\ everywhere w0 = [] /\ everywhere w1 = []).
  { intros e t1 t2 ->.
    assert (P : forall t1 w0 t2 w2, wsteps w0 (t1 ++ t2) w2 -> exists w1, wsteps w0 t1 w1 /\ wsteps w1 t2 w2).
    { clear. induction t1 as [|e t1 IH]; intros w0 t2 w2 H; [exists w0; split; [constructor|exact H]|].
      inversion H as [|? ? w1 ? ? H1 H2]; subst. destruct (IH _ _ _ H2) as (w3 & A & B). exists w3. split; auto.
      econstructor; eauto. }
    destruct (P _ _ _ _ H) as (w0 & Ha & Hb). inversion Hb as [|? ? w1 ? ? S1 S2]; subst.
    exists w0, w1. split; auto. split.
    - apply (A t1); auto. intros c Hc. apply (Hn c). apply in_or_app. auto.
    - apply (A (t1 ++ [e])); [intros c Hc; apply (Hn c); apply in_app_or in Hc; apply in_or_app; cbn; destruct Hc as [Hc|[Hc|[]]]; auto|].
      clear - Ha S1. induction Ha; cbn; [econstructor; [exact S1|constructor]|econstructor; eauto]. }
  assert (Q : forall e, In e tr ->
     (forall k l, e = EAct k l -> no_traffic l) /\ (forall c, e <> ELose c) /\ (forall c c', e <> EEdit c c') /\ (forall k, e <> EUnwind k)).
  { intros e He. destruct (in_split _ _ He) as (t1 & t2 & Et). destruct (Sp _ _ _ Et) as (w0 & w1 & S1 & E0 & E1).
    apply (St _ _ _ S1 E0 E1). intros c ->. exact (Hn c He). }
  repeat split.
  - intros k l Hl. destruct (Q _ Hl) as [Q1 _]. eapply Q1; eauto.
  - intros c Hc. destruct (Q _ Hc) as (_ & Q1 & _). eapply Q1; eauto.
  - intros c c' Hc. destruct (Q _ Hc) as (_ & _ & Q1 & _). eapply Q1; eauto.
  - intros k Hk. destruct (Q _ Hk) as (_ & _ & _ & Q1). eapply Q1; eauto.
Qed.
Print Assumptions C60_clients_can_submit_refuted.

(** With a way to build one, the rest works: a collaction is built, edited,
    sent, applied by the engine and handed back as it was sent. *)
Definition ex_coll : collaction := [ChannelAssert (mkDh (TPrim TU8) (mkIndex 0 0)) (PPrim (VU8 1))].
Definition ex_coll' : collaction := [ChannelWrite (mkDh (TPrim TU8) (mkIndex 0 0)) (PPrim (VU8 2))].
Theorem C60_with_a_constructor_it_works :
  exists r tr w, wsteps nothing tr w /\ In (EMake ex_coll) tr /\ In (EEdit ex_coll ex_coll') tr /\
    In (EAct 0 (LSend 7 ex_coll')) tr /\ In (EAct 0 (LReturn (Accepted ex_coll'))) tr /\
    w_owned w = [ex_coll'] /\ w_engines w = [Some (sys_new r (Some 1))].
Proof.
  set (r := realm_new Coq.Strings.String.EmptyString).
  exists r, [ENew r (Some 1); EMake ex_coll; EEdit ex_coll ex_coll'; EAct 0 (LSend 7 ex_coll'); EAct 0 (LRecv 7 ex_coll');
     EAct 0 LWork; EAct 0 LWork; EAct 0 (LReturn (Accepted ex_coll'))]. eexists. split.
  - eapply wsteps_cons; [apply w_new|]. eapply wsteps_cons; [apply w_make|].
    eapply wsteps_cons; [apply (w_edit [] []); reflexivity|].
    eapply wsteps_cons.
    { eapply (w_act _ _ [] [] []); [apply step_send; [discriminate|intros (n & E & Hl); injection E as <-; cbn in Hl; lia]|apply incl_refl|reflexivity|reflexivity]. }
    eapply wsteps_cons.
    { eapply (w_act _ _ [] [] []); [eapply step_recv; reflexivity|intros x []|reflexivity|reflexivity]. }
    eapply wsteps_cons.
    { eapply (w_act _ _ [] [] []); [eapply step_work; [reflexivity|discriminate|discriminate|reflexivity]|intros x []|reflexivity|reflexivity]. }
    eapply wsteps_cons.
    { eapply (w_act _ _ [] [] []); [eapply step_work; [reflexivity|discriminate|discriminate|reflexivity]|intros x []|reflexivity|reflexivity]. }
    eapply wsteps_cons.
    { eapply (w_act _ _ [] [] []); [eapply step_return; reflexivity|intros x []|reflexivity|reflexivity]. }
    apply wsteps_nil.
  - cbn. intuition.
Qed.
Print Assumptions C60_with_a_constructor_it_works.
