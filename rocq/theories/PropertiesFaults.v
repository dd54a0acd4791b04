(** C48, failures: a generator that reports success had no operation fail. *)
From Verif Require Import CodegenProofs Codegen.
Import Coq.Strings.String.StringSyntax.
Open Scope string_scope.
Open Scope list_scope.
Open Scope nat_scope.

(** [ran f used f']: the operations on the file system that were performed went as [used]
    says, one after the other, when what was to happen was [f] (past the end of [f] nothing
    fails any more); [f'] is what is still to come. *)
Inductive ran : faults -> list (option nat) -> faults -> Prop :=
| ran_none f : ran f [] f
| ran_next e f u f' : ran f u f' -> ran (e :: f) (e :: u) f'
| ran_past u f' : ran [] u f' -> ran [] (None :: u) f'.

(** The question whether the directory may be written: not asked with -f; no directory; its
    existence could not be found out (which counts as no); it was read and found empty. *)
Inductive asked : bool -> dir -> list (option nat) -> Prop :=
| asked_not d : asked true d []
| asked_absent e : asked false None [e]
| asked_in_vain d n : asked false d [Some n]
| asked_empty : asked false (Some []) [None; None].

(** Making the directory and reading the two templates; creating and writing a file. *)
Definition three_fine : list (option nat) := [None; None; None].
Definition two_fine : list (option nat) := [None; None].

Lemma ran_app f u f1 : ran f u f1 -> forall v f2, ran f1 v f2 -> ran f (u ++ v) f2.
Proof. induction 1; intros v f2 R; cbn [app]; [exact R| |]; constructor; auto. Qed.
Lemma ran_step f e f1 u f2 : next f = (e, f1) -> ran f1 u f2 -> ran f (e :: u) f2.
Proof. destruct f as [|x f]; cbn [next]; intros E R; injection E as <- <-; constructor; exact R. Qed.

Lemma new_ran m p o d f r d' f' : codegen_new m p o d f = (Some r, d', f') ->
  d' = Some (files d) /\ exists t, asked o d t /\ ran f (t ++ three_fine) f'.
Proof.
  unfold codegen_new. intros H.
  assert (C : exists t f0, asked o d t /\ (forall u f2, ran f0 u f2 -> ran f (t ++ u) f2) /\
    match (let '(e, g) := next f0 in match e with
      | Some _ => (None, d, g)
      | None => let '(e, g) := next g in
          match e, parse m with
          | None, Some m => let '(e, g) := next g in match e, parse p with
              | None, Some p => (Some (mkRegistry m [(lit "additional_methods", p)]), Some (files d), g)
              | _, _ => (None, Some (files d), g) end
          | _, _ => (None, Some (files d), g) end end) with x => x = (Some r, d', f') end).
  { destruct o.
    - exists [], f. split; [constructor|]. split; [intros u f2 R; exact R|exact H].
    - destruct (next f) as [[n|] f1] eqn:E1.
      + exists [Some n], f1. split; [constructor|]. split; [intros u f2 R; cbn [app]; apply (ran_step _ _ _ _ _ E1 R)|].
        exact H.
      + destruct d as [l|].
        * destruct (next f1) as [[n|] f2] eqn:E2; [discriminate|]. destruct l as [|x l]; [|discriminate].
          exists [None; None], f2. split; [constructor|].
          split; [intros u f3 R; cbn [app]; apply (ran_step _ _ _ _ _ E1), (ran_step _ _ _ _ _ E2 R)|exact H].
        * exists [None], f1. split; [constructor|]. split; [intros u f2 R; cbn [app]; apply (ran_step _ _ _ _ _ E1 R)|exact H]. }
  clear H. destruct C as (t & f0 & A & R & H).
  destruct (next f0) as [[n|] f1] eqn:E1; [discriminate|].
  destruct (next f1) as [[n|] f2] eqn:E2; [discriminate|]. destruct (parse m) as [m'|]; [|discriminate].
  destruct (next f2) as [[n|] f3] eqn:E3; [discriminate|]. destruct (parse p) as [p'|]; [|discriminate].
  injection H as _ <- <-. split; [reflexivity|]. exists t. split; [exact A|]. apply R. unfold three_fine.
  apply (ran_step _ _ _ _ _ E1), (ran_step _ _ _ _ _ E2), (ran_step _ _ _ _ _ E3). constructor.
Qed.
Lemma file_ran r c d f d' f' : render_to_file r c d f = (true, d', f') -> ran f two_fine f'.
Proof.
  unfold render_to_file. intros H. destruct (next f) as [[n|] f1] eqn:E1; [discriminate|].
  destruct (render r (to_object c)) as [text ok]. destruct (next f1) as [[n|] f2] eqn:E2; [discriminate|].
  injection H as _ _ <-. apply (ran_step _ _ _ _ _ E1), (ran_step _ _ _ _ _ E2). constructor.
Qed.
Lemma all_ran r cs : forall d f d' f', render_all r cs d f = (true, d', f') -> ran f (repeat None (2 * length cs)) f'.
Proof.
  induction cs as [|c cs IH]; intros d f d' f' H; cbn [render_all] in H.
  - injection H as _ <-. constructor.
  - destruct (render_to_file r c d f) as [[ok d1] f1] eqn:E. destruct ok; [|discriminate].
    replace (2 * length (c :: cs)) with (2 + 2 * length cs) by (cbn [length]; lia). rewrite repeat_app.
    apply (ran_app _ _ _ (file_ran _ _ _ _ _ _ E)). apply (IH _ _ _ _ H).
Qed.

(** Success of client/codegen_wrapped: every operation it performed succeeded, but for
    questions whether the directory exists; there were as many as classes and templates ask for. *)
Theorem C48_success_hides_no_failure :
  forall force d f d' f', main force d f = (true, d', f') ->
    exists t1 t2 t3 t4,
      asked force d t1 /\ Forall (asked force (Some (files d))) [t2; t3; t4] /\
      ran f ((t1 ++ three_fine) ++ (t2 ++ three_fine) ++ (t3 ++ three_fine) ++ (t4 ++ three_fine) ++
             repeat None (2 * 4 * length types)) f'.
Proof.
  intros force d f d' f' H. unfold main in H.
  destruct (codegen_new tpl_opaque tpl_keyframe force d f) as [[k d1] f1] eqn:E1. destruct k as [rk|]; [|discriminate].
  destruct (codegen_new tpl_opaque tpl_state force d1 f1) as [[s d2] f2] eqn:E2. destruct s as [rs|]; [|discriminate].
  destruct (codegen_new tpl_opaque tpl_state_id force d2 f2) as [[i d3] f3] eqn:E3. destruct i as [ri|]; [|discriminate].
  destruct (codegen_new tpl_opaque tpl_state_handle force d3 f3) as [[h d4] f4] eqn:E4. destruct h as [rh|]; [|discriminate].
  apply new_ran in E1. destruct E1 as [-> (t1 & A1 & R1)]. apply new_ran in E2. destruct E2 as [-> (t2 & A2 & R2)].
  apply new_ran in E3. destruct E3 as [-> (t3 & A3 & R3)]. apply new_ran in E4. destruct E4 as [-> (t4 & A4 & R4)].
  cbn [files] in *.
  destruct (render_all rk (map cd_keyframe types) _ f4) as [[ok1 e1] g1] eqn:G1.
  destruct (render_all rs (map cd_state types) e1 g1) as [[ok2 e2] g2] eqn:G2.
  destruct (render_all ri (map cd_state_id types) e2 g2) as [[ok3 e3] g3] eqn:G3.
  destruct (render_all rh (map cd_state_handle types) e3 g3) as [[ok4 e4] g4] eqn:G4.
  assert (ok1 = true /\ ok2 = true /\ ok3 = true /\ ok4 = true /\ g4 = f') as (-> & -> & -> & -> & ->).
  { destruct ok1, ok2, ok3, ok4; try discriminate H. injection H as _ ->. tauto. }
  apply all_ran in G1, G2, G3, G4. rewrite map_length in G1, G2, G3, G4.
  exists t1, t2, t3, t4. split; [exact A1|]. split; [repeat (apply Forall_cons; [assumption|]); apply Forall_nil|].
  apply (ran_app _ _ _ R1), (ran_app _ _ _ R2), (ran_app _ _ _ R3), (ran_app _ _ _ R4).
  replace (2 * 4 * length types) with (2 * length types + (2 * length types + (2 * length types + 2 * length types))) by lia.
  rewrite !repeat_app. apply (ran_app _ _ _ G1), (ran_app _ _ _ G2), (ran_app _ _ _ G3 _ _ G4).
Qed.
Print Assumptions C48_success_hides_no_failure.

Lemma box_new_ran o d f r d' f' : box_new o d f = (Some r, d', f') ->
  exists t, asked o d t /\ ran f (t ++ three_fine) f'.
Proof.
  unfold box_new. intros H.
  assert (C : exists t f0, asked o d t /\ (forall u f2, ran f0 u f2 -> ran f (t ++ u) f2) /\
    match (let '(e, g) := next f0 in match e with
      | Some _ => (None, d, g)
      | None => let '(e, g) := next g in
          match e, parse tpl_rbox with
          | None, Some m => let '(e, g) := next g in match e with
              | None => (Some (mkRegistry m []), Some (files d), g)
              | Some _ => (None, Some (files d), g) end
          | _, _ => (None, Some (files d), g) end end) with x => x = (Some r, d', f') end).
  { destruct o.
    - exists [], f. split; [constructor|]. split; [intros u f2 R; exact R|exact H].
    - destruct (next f) as [[n|] f1] eqn:E1.
      + exists [Some n], f1. split; [constructor|]. split; [intros u f2 R; cbn [app]; apply (ran_step _ _ _ _ _ E1 R)|].
        exact H.
      + destruct d as [l|].
        * destruct (next f1) as [[n|] f2] eqn:E2; [discriminate|]. destruct l as [|x l]; [|discriminate].
          exists [None; None], f2. split; [constructor|].
          split; [intros u f3 R; cbn [app]; apply (ran_step _ _ _ _ _ E1), (ran_step _ _ _ _ _ E2 R)|exact H].
        * exists [None], f1. split; [constructor|]. split; [intros u f2 R; cbn [app]; apply (ran_step _ _ _ _ _ E1 R)|exact H]. }
  clear H. destruct C as (t & f0 & A & R & H).
  destruct (next f0) as [[n|] f1] eqn:E1; [discriminate|].
  destruct (next f1) as [[n|] f2] eqn:E2; [discriminate|]. destruct (parse tpl_rbox) as [m'|]; [|discriminate].
  destruct (next f2) as [[n|] f3] eqn:E3; [discriminate|].
  injection H as _ _ <-. exists t. split; [exact A|]. apply R. unfold three_fine.
  apply (ran_step _ _ _ _ _ E1), (ran_step _ _ _ _ _ E2), (ran_step _ _ _ _ _ E3). constructor.
Qed.
Lemma box_file_ran r c d f d' f' : box_to_file r c d f = (true, d', f') -> ran f two_fine f'.
Proof.
  unfold box_to_file. intros H. destruct (next f) as [[n|] f1] eqn:E1; [discriminate|].
  destruct (render r (box_object c)) as [text ok]. destruct (next f1) as [[n|] f2] eqn:E2; [discriminate|].
  injection H as _ _ <-. apply (ran_step _ _ _ _ _ E1), (ran_step _ _ _ _ _ E2). constructor.
Qed.
Lemma box_all_ran r cs : forall d f d' f', box_all r cs d f = (Ok tt, d', f') -> ran f (repeat None (2 * length cs)) f'.
Proof.
  induction cs as [|c cs IH]; intros d f d' f' H; cbn [box_all] in H.
  - injection H as _ <-. constructor.
  - destruct (box_to_file r c d f) as [[ok d1] f1] eqn:E. destruct ok; [|discriminate].
    replace (2 * length (c :: cs)) with (2 + 2 * length cs) by (cbn [length]; lia). rewrite repeat_app.
    apply (ran_app _ _ _ (box_file_ran _ _ _ _ _ _ E)). apply (IH _ _ _ _ H).
Qed.

(** The same of crates/rsharp/codegen, which reads its one template twice. *)
Theorem C48_box_success_hides_no_failure :
  forall force d f d' f', box_main force d f = (Some (Ok tt), d', f') ->
    exists t, asked force d t /\ ran f ((t ++ three_fine) ++ repeat None (2 * length boxes)) f'.
Proof.
  intros force d f d' f' H. unfold box_main in H. destruct (box_new force d f) as [[k d1] f1] eqn:E. destruct k as [r|]; [|discriminate].
  destruct (box_all r boxes d1 f1) as [[o d2] f2] eqn:G. injection H as -> _ ->.
  apply box_new_ran in E. destruct E as (t & A & R). exists t. split; [exact A|].
  apply (ran_app _ _ _ R). apply (box_all_ran _ _ _ _ _ _ G).
Qed.
Print Assumptions C48_box_success_hides_no_failure.

(** A run that succeeds although the directory's existence could not be found out at the
    start, and one whose last write fails. *)
Example C48_failures_met :
  fst (fst (main false None (Some 0 :: repeat None 500))) = true /\
  fst (fst (main true None (repeat None 123 ++ [Some 7]))) = false /\
  fst (fst (box_main true None (repeat None 24 ++ [Some 7]))) = Some Panic /\
  fst (fst (box_main true None (repeat None 25 ++ [Some 7]))) = Some (Ok tt).
Proof. vm_compute. repeat split. Qed.
