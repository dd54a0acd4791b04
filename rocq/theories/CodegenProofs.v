(** Lemmas for C48 (client/codegen_wrapped, crates/rsharp/codegen). *)
From Verif Require Import Codegen.
From Coq Require Import Lia.
Import Coq.Strings.String.StringSyntax.
Open Scope string_scope.
Open Scope list_scope.
Open Scope nat_scope.

(** The file called [x] in the directory. *)
Definition file (d : dir) (x : str) : option str := lookup x (files d).

Lemma str_eqb_spec : forall a b, reflect (a = b) (str_eqb a b).
Proof.
  induction a as [|x a IH]; intros [|y b]; cbn; try (constructor; congruence).
  destruct (N.eqb_spec x y); cbn; [|constructor; congruence].
  destruct (IH b); constructor; congruence.
Qed.

Lemma str_eqb_refl : forall a, str_eqb a a = true.
Proof. intros a. destruct (str_eqb_spec a a); congruence. Qed.

Lemma lookup_put : forall x v l y,
  lookup y (put x v l) = if str_eqb y x then Some v else lookup y l.
Proof.
  induction l as [|[z w] l IH]; intros y; cbn.
  - reflexivity.
  - destruct (str_eqb_spec x z); subst; cbn.
    + destruct (str_eqb_spec y z); reflexivity.
    + rewrite IH. destruct (str_eqb_spec y z), (str_eqb_spec y x); subst; congruence.
Qed.

Lemma file_put : forall d x v y,
  file (Some (put x v (files d))) y = if str_eqb y x then Some v else file d y.
Proof. intros. unfold file. cbn [files]. apply lookup_put. Qed.

Definition calm (f : faults) : Prop := Forall (fun e => e = None) f.

Lemma next_calm : forall f, calm f -> fst (next f) = None /\ calm (snd (next f)).
Proof. intros [|a f] C; cbn; [split; auto|]. inversion C; subst; auto. Qed.

Lemma next_fault : forall f e f', next f = (e, f') -> calm f -> e = None /\ calm f'.
Proof. intros f e f' E C. pose proof (next_calm f C) as N. rewrite E in N. exact N. Qed.

(** What a list of classes, each with a file name and a text, leaves behind. *)
Record item : Type := mkItem { i_name : str; i_text : str }.

Definition left_behind (its : list item) (d d' : dir) (ok : bool) : Prop :=
  exists m,
    (forall i it, nth_error its i = Some it -> i < m -> file d' (i_name it) = Some (i_text it)) /\
    (forall it, nth_error its m = Some it ->
       file d' (i_name it) = file d (i_name it) \/
       exists n, file d' (i_name it) = Some (firstn n (i_text it))) /\
    (forall i it, nth_error its i = Some it -> m < i -> file d' (i_name it) = file d (i_name it)) /\
    (forall x, ~ In x (map i_name its) -> file d' x = file d x) /\
    (ok = true -> m = length its).

Definition class_item (r : registry) (c : class_data) : item :=
  mkItem (class_ident c ++ lit ".cs") (fst (render r (to_object c))).

Lemma render_all_spec : forall r cs d f ok d' f',
  (forall c, In c cs -> snd (render r (to_object c)) = true) ->
  NoDup (map i_name (map (class_item r) cs)) ->
  render_all r cs d f = (ok, d', f') ->
  left_behind (map (class_item r) cs) d d' ok /\ (calm f -> ok = true /\ calm f').
Proof.
  induction cs as [|c cs IH]; intros d f ok d' f' R ND E.
  - cbn in E. inversion E; subst. split; [|auto].
    exists 0. cbn. repeat split; intros; try (destruct i; discriminate); try discriminate; auto.
  - cbn [render_all] in E. unfold render_to_file in E.
    destruct (next f) as [e1 f1] eqn:N1.
    assert (R0 : snd (render r (to_object c)) = true) by (apply R; left; reflexivity).
    cbn [map] in ND. apply NoDup_cons_iff in ND. destruct ND as [NI ND'].
    cbn [map]. remember (class_item r c) as it eqn:It in *.
    assert (Hn0 : i_name it = class_ident c ++ lit ".cs") by (subst it; reflexivity).
    cbv zeta in E. rewrite <- Hn0 in E.
    destruct e1 as [n|].
    + inversion E; subst. split.
      * exists 0. split; [intros; lia|]. split; [intros; left; reflexivity|].
        split; [reflexivity|]. split; [reflexivity|discriminate].
      * intros C. apply (next_fault _ _ _ N1) in C. destruct C; discriminate.
    + destruct (render r (to_object c)) as [text okr] eqn:RE. cbn in R0; subst okr.
      destruct (next f1) as [e2 f2] eqn:N2.
      assert (Ht : i_text it = text)
        by (subst it; unfold class_item; cbn [i_name i_text]; rewrite RE; reflexivity).
      clear It Hn0.
      destruct e2 as [n|].
      * inversion E; subst. split.
        -- exists 0. split; [intros; lia|]. split.
           { intros it' H. inversion H; subst. right. exists n.
             rewrite file_put, str_eqb_refl. reflexivity. }
           split.
           { intros [|i] it' H L; [lia|]. cbn in H. rewrite file_put.
             destruct (str_eqb_spec (i_name it') (i_name it)) as [Q|]; [|reflexivity].
             exfalso. apply NI. rewrite <- Q. apply in_map. eapply nth_error_In; eauto. }
           split; [|discriminate].
           intros x NX. rewrite file_put.
           destruct (str_eqb_spec x (i_name it)) as [Q|]; [|reflexivity].
           exfalso. apply NX. left. symmetry. exact Q.
        -- intros C. apply (next_fault _ _ _ N1) in C. destruct C as [_ C].
           apply (next_fault _ _ _ N2) in C. destruct C; discriminate.
      * specialize (IH _ _ _ _ _ (fun c' H => R c' (or_intror H)) ND' E).
        destruct IH as [[m (A & B & Cc & X & M)] K].
        assert (Keep : file d' (i_name it) = Some (i_text it)).
        { rewrite X by exact NI. rewrite file_put, str_eqb_refl. congruence. }
        assert (Old : forall y, y <> i_name it -> file (Some (put (i_name it) text (files d))) y = file d y).
        { intros y NE. rewrite file_put. destruct (str_eqb_spec y (i_name it)); congruence. }
        assert (Other : forall i it', nth_error (map (class_item r) cs) i = Some it' -> i_name it' <> i_name it).
        { intros i it' H Q. apply NI. rewrite <- Q. apply in_map. eapply nth_error_In; eauto. }
        split.
        -- exists (S m). split.
           { intros [|i] it' H L; cbn in H; [inversion H; subst; exact Keep|]. apply (A i it' H). lia. }
           split.
           { intros it' H. cbn in H. destruct (B _ H) as [Q|Q]; [left|right; exact Q].
             rewrite Q. apply Old. eapply Other; eauto. }
           split.
           { intros [|i] it' H L; [lia|]. cbn in H. rewrite (Cc i it' H) by lia. apply Old. eapply Other; eauto. }
           split.
           { intros x NX. cbn in NX. rewrite X by tauto. apply Old. intros Q. apply NX. left. symmetry. exact Q. }
           { intros Q. cbn. rewrite (M Q). reflexivity. }
        -- intros Cf. apply (next_fault _ _ _ N1) in Cf. destruct Cf as [_ Cf].
           apply (next_fault _ _ _ N2) in Cf. destruct Cf as [_ Cf]. exact (K Cf).
Qed.

Definition box_item (r : registry) (c : box_info) : item :=
  mkItem (lit "RBox_" ++ type_platform c ++ lit ".cs") (fst (render r (box_object c))).

Lemma box_all_spec : forall r cs d f o d' f',
  (forall c, In c cs -> snd (render r (box_object c)) = true) ->
  NoDup (map i_name (map (box_item r) cs)) ->
  box_all r cs d f = (o, d', f') ->
  left_behind (map (box_item r) cs) d d' (match o with Ok _ => true | _ => false end) /\
  (o = Ok tt \/ o = Panic) /\ (calm f -> o = Ok tt /\ calm f').
Proof.
  induction cs as [|c cs IH]; intros d f o d' f' R ND E.
  - cbn in E. inversion E; subst. split; [|split; auto].
    exists 0. cbn. repeat split; intros; try (destruct i; discriminate); try discriminate; auto.
  - cbn [box_all] in E. unfold box_to_file in E.
    destruct (next f) as [e1 f1] eqn:N1.
    assert (R0 : snd (render r (box_object c)) = true) by (apply R; left; reflexivity).
    cbn [map] in ND. apply NoDup_cons_iff in ND. destruct ND as [NI ND'].
    cbn [map]. remember (box_item r c) as it eqn:It in *.
    assert (Hn0 : i_name it = lit "RBox_" ++ type_platform c ++ lit ".cs") by (subst it; reflexivity).
    cbv zeta in E. rewrite <- Hn0 in E.
    destruct e1 as [n|].
    + inversion E; subst. split.
      * exists 0. split; [intros; lia|]. split; [intros; left; reflexivity|].
        split; [reflexivity|]. split; [reflexivity|discriminate].
      * split; [right; reflexivity|].
        intros C. apply (next_fault _ _ _ N1) in C. destruct C; discriminate.
    + destruct (render r (box_object c)) as [text okr] eqn:RE. cbn in R0; subst okr.
      destruct (next f1) as [e2 f2] eqn:N2.
      assert (Ht : i_text it = text)
        by (subst it; unfold box_item; cbn [i_name i_text]; rewrite RE; reflexivity).
      clear It Hn0.
      destruct e2 as [n|].
      * inversion E; subst. split.
        -- exists 0. split; [intros; lia|]. split.
           { intros it' H. inversion H; subst. right. exists n.
             rewrite file_put, str_eqb_refl. reflexivity. }
           split.
           { intros [|i] it' H L; [lia|]. cbn in H. rewrite file_put.
             destruct (str_eqb_spec (i_name it') (i_name it)) as [Q|]; [|reflexivity].
             exfalso. apply NI. rewrite <- Q. apply in_map. eapply nth_error_In; eauto. }
           split; [|discriminate].
           intros x NX. rewrite file_put.
           destruct (str_eqb_spec x (i_name it)) as [Q|]; [|reflexivity].
           exfalso. apply NX. left. symmetry. exact Q.
        -- split; [right; reflexivity|]. intros C. apply (next_fault _ _ _ N1) in C. destruct C as [_ C].
           apply (next_fault _ _ _ N2) in C. destruct C; discriminate.
      * specialize (IH _ _ _ _ _ (fun c' H => R c' (or_intror H)) ND' E).
        destruct IH as [[m (A & B & Cc & X & M)] [Ko K]].
        assert (Keep : file d' (i_name it) = Some (i_text it)).
        { rewrite X by exact NI. rewrite file_put, str_eqb_refl. congruence. }
        assert (Old : forall y, y <> i_name it -> file (Some (put (i_name it) text (files d))) y = file d y).
        { intros y NE. rewrite file_put. destruct (str_eqb_spec y (i_name it)); congruence. }
        assert (Other : forall i it', nth_error (map (box_item r) cs) i = Some it' -> i_name it' <> i_name it).
        { intros i it' H Q. apply NI. rewrite <- Q. apply in_map. eapply nth_error_In; eauto. }
        split.
        -- exists (S m). split.
           { intros [|i] it' H L; cbn in H; [inversion H; subst; exact Keep|]. apply (A i it' H). lia. }
           split.
           { intros it' H. cbn in H. destruct (B _ H) as [Q|Q]; [left|right; exact Q].
             rewrite Q. apply Old. eapply Other; eauto. }
           split.
           { intros [|i] it' H L; [lia|]. cbn in H. rewrite (Cc i it' H) by lia. apply Old. eapply Other; eauto. }
           split.
           { intros x NX. cbn in NX. rewrite X by tauto. apply Old. intros Q. apply NX. left. symmetry. exact Q. }
           { intros Q. cbn. rewrite (M Q). reflexivity. }
        -- split; [exact Ko|]. intros Cf. apply (next_fault _ _ _ N1) in Cf. destruct Cf as [_ Cf].
           apply (next_fault _ _ _ N2) in Cf. destruct Cf as [_ Cf]. exact (K Cf).
Qed.

(** [Codegen::new] touches no file. *)
Lemma new_files : forall m p o d f r d' f',
  codegen_new m p o d f = (r, d', f') -> forall x, file d' x = file d x.
Proof.
  intros m p o d f r d' f' E x. unfold codegen_new in E.
  repeat (match type of E with
          | context [match ?a with _ => _ end] => destruct a eqn:?
          | context [if ?a then _ else _] => destruct a eqn:?
          end; cbn in E);
  try (inversion E; subst; reflexivity).
Qed.

Lemma new_files' : forall m p o d f r d' f',
  codegen_new m p o d f = (r, d', f') -> files d' = files d.
Proof.
  intros m p o d f r d' f' E. unfold codegen_new in E.
  repeat (match type of E with
          | context [match ?a with _ => _ end] => destruct a eqn:?
          | context [if ?a then _ else _] => destruct a eqn:?
          end; cbn in E);
  try (inversion E; subst; reflexivity).
Qed.

Lemma new_some : forall m p o d f r d' f',
  codegen_new m p o d f = (Some r, d', f') ->
  exists a b, parse m = Some a /\ parse p = Some b /\ r = mkRegistry a [(lit "additional_methods", b)].
Proof.
  intros m p o d f r d' f' E. unfold codegen_new in E.
  destruct (if o then _ else _) as [c f0].
  destruct c as [[|]|]; try discriminate.
  destruct (next f0) as [[|] f1]; try discriminate.
  destruct (next f1) as [[|] f2]; try discriminate.
  destruct (parse m); try discriminate.
  destruct (next f2) as [[|] f3]; try discriminate.
  destruct (parse p); try discriminate. inversion E; subst. eauto.
Qed.

Lemma new_calm : forall m p o d f r d' f' a b,
  parse m = Some a -> parse p = Some b ->
  codegen_new m p o d f = (r, d', f') -> calm f -> (o = true \/ files d = []) ->
  (exists q, r = Some q) /\ calm f'.
Proof.
  intros m p o d f r d' f' a b Pm Pp E C O. unfold codegen_new in E. rewrite Pm, Pp in E.
  destruct o.
  - destruct (next f) as [e1 f1] eqn:N1. destruct (next_fault _ _ _ N1 C) as [-> C1].
    destruct (next f1) as [e2 f2] eqn:N2. destruct (next_fault _ _ _ N2 C1) as [-> C2].
    destruct (next f2) as [e3 f3] eqn:N3. destruct (next_fault _ _ _ N3 C2) as [-> C3].
    inversion E; subst. split; eauto.
  - destruct O as [|O]; [discriminate|].
    destruct (next f) as [e0 f0] eqn:N0. destruct (next_fault _ _ _ N0 C) as [-> C0].
    destruct d as [l|].
    + cbn in O. subst l.
      destruct (next f0) as [e1 f1] eqn:N1. destruct (next_fault _ _ _ N1 C0) as [-> C1].
      destruct (next f1) as [e2 f2] eqn:N2. destruct (next_fault _ _ _ N2 C1) as [-> C2].
      destruct (next f2) as [e3 f3] eqn:N3. destruct (next_fault _ _ _ N3 C2) as [-> C3].
      destruct (next f3) as [e4 f4] eqn:N4. destruct (next_fault _ _ _ N4 C3) as [-> C4].
      inversion E; subst. split; eauto.
    + destruct (next f0) as [e1 f1] eqn:N1. destruct (next_fault _ _ _ N1 C0) as [-> C1].
      destruct (next f1) as [e2 f2] eqn:N2. destruct (next_fault _ _ _ N2 C1) as [-> C2].
      destruct (next f2) as [e3 f3] eqn:N3. destruct (next_fault _ _ _ N3 C2) as [-> C3].
      inversion E; subst. split; eauto.
Qed.

(** Refusal: not forced, and the directory holds something. *)
Lemma new_refuses : forall m p l f r d' f',
  l <> [] -> hd None f = None ->
  codegen_new m p false (Some l) f = (r, d', f') -> r = None /\ d' = Some l.
Proof.
  intros m p l f r d' f' L H E. unfold codegen_new in E.
  assert (N : fst (next f) = None) by (destruct f; [reflexivity|exact H]).
  destruct (next f) as [e f1]. cbn in N. subst e.
  destruct (next f1) as [[n|] f2].
  - inversion E; subst; auto.
  - destruct l; [congruence|]. inversion E; subst; auto.
Qed.

Lemma box_new_files : forall o d f r d' f',
  box_new o d f = (r, d', f') -> files d' = files d.
Proof.
  intros o d f r d' f' E. unfold box_new in E.
  repeat (match type of E with
          | context [match ?a with _ => _ end] => destruct a eqn:?
          | context [if ?a then _ else _] => destruct a eqn:?
          end; cbn in E);
  try (inversion E; subst; reflexivity).
Qed.

Lemma box_new_some : forall o d f r d' f',
  box_new o d f = (Some r, d', f') -> exists a, parse tpl_rbox = Some a /\ r = mkRegistry a [].
Proof.
  intros o d f r d' f' E. unfold box_new in E.
  destruct (if o then _ else _) as [c f0].
  destruct c as [[|]|]; try discriminate.
  destruct (next f0) as [[|] f1]; try discriminate.
  destruct (next f1) as [[|] f2]; try discriminate.
  destruct (parse tpl_rbox); try discriminate.
  destruct (next f2) as [[|] f3]; try discriminate. inversion E; subst. eauto.
Qed.

Lemma box_new_calm : forall o d f r d' f' a,
  parse tpl_rbox = Some a ->
  box_new o d f = (r, d', f') -> calm f -> (o = true \/ files d = []) ->
  (exists q, r = Some q) /\ calm f'.
Proof.
  intros o d f r d' f' a Pm E C O. unfold box_new in E. rewrite Pm in E.
  destruct o.
  - destruct (next f) as [e1 f1] eqn:N1. destruct (next_fault _ _ _ N1 C) as [-> C1].
    destruct (next f1) as [e2 f2] eqn:N2. destruct (next_fault _ _ _ N2 C1) as [-> C2].
    destruct (next f2) as [e3 f3] eqn:N3. destruct (next_fault _ _ _ N3 C2) as [-> C3].
    inversion E; subst. split; eauto.
  - destruct O as [|O]; [discriminate|].
    destruct (next f) as [e0 f0] eqn:N0. destruct (next_fault _ _ _ N0 C) as [-> C0].
    destruct d as [l|].
    + cbn in O. subst l.
      destruct (next f0) as [e1 f1] eqn:N1. destruct (next_fault _ _ _ N1 C0) as [-> C1].
      destruct (next f1) as [e2 f2] eqn:N2. destruct (next_fault _ _ _ N2 C1) as [-> C2].
      destruct (next f2) as [e3 f3] eqn:N3. destruct (next_fault _ _ _ N3 C2) as [-> C3].
      destruct (next f3) as [e4 f4] eqn:N4. destruct (next_fault _ _ _ N4 C3) as [-> C4].
      inversion E; subst. split; eauto.
    + destruct (next f0) as [e1 f1] eqn:N1. destruct (next_fault _ _ _ N1 C0) as [-> C1].
      destruct (next f1) as [e2 f2] eqn:N2. destruct (next_fault _ _ _ N2 C1) as [-> C2].
      destruct (next f2) as [e3 f3] eqn:N3. destruct (next_fault _ _ _ N3 C2) as [-> C3].
      inversion E; subst. split; eauto.
Qed.

Lemma box_new_refuses : forall l f r d' f',
  l <> [] -> hd None f = None ->
  box_new false (Some l) f = (r, d', f') -> r = None /\ d' = Some l.
Proof.
  intros l f r d' f' L H E. unfold box_new in E.
  assert (N : fst (next f) = None) by (destruct f; [reflexivity|exact H]).
  destruct (next f) as [e f1]. cbn in N. subst e.
  destruct (next f1) as [[n|] f2].
  - inversion E; subst; auto.
  - destruct l; [congruence|]. inversion E; subst; auto.
Qed.
