(** A toolchain and a checkout for which the build script runs to its end (C56). *)
From Verif Require Export BuildProofs.
Import Coq.Strings.String.StringSyntax.
Open Scope string_scope.
Open Scope list_scope.
Open Scope nat_scope.

Definition ex_product (release : bool) (t : triple) : string :=
  Coq.Strings.String.append (profile_dir release) (triple_name t).
Definition ex_dll (ios : bool) (n : string) : string := if ios then Coq.Strings.String.append "ios " n else n.

(** A file and the directories it is in. *)
Definition save (p : path) (v : string) (f : fs) : fs := put p (Some (File v)) (make_dirs [] (parent p) f).
Definition can_save (p : path) (f : fs) : Prop := ~ blocked f (parent p) /\ p <> [] /\ f p <> Some Dir.
Definition one_project (d : path) (f : fs) : Prop :=
  exists n, is_project n /\ f (d ++ [n]) <> None /\ forall m, is_project m -> f (d ++ [m]) <> None -> m = n.
Definition tests_dir : path := ["client"; "cs"; "tests"].
Definition saves (l : list (path * string)) (f f' : fs) : Prop :=
  (fix go l f := match l with
                 | [] => f' = f
                 | (p, v) :: r => can_save p f /\ go r (save p v f)
                 end) l f.
Definition outputs (d : path) (t : tool) : list (path * string) :=
  match t with
  | Build _ r t => [(built_at r t, ex_product r t)]
  | DotnetTest => [(d ++ ["bin"; "Debug"; "net6.0"; "CppSharp.Runtime.dll"], "runtime")]
  | DotnetBuild out ios => map (fun n => (d ++ out ++ [n], ex_dll ios n)) ["client.dll"; "rsharp.dll"; "unity_states.dll"]
  | _ => []
  end.
(** Succeeding programs write their outputs; failing ones nothing. *)
Definition ex_tools : programs := fun d t f ok f' =>
  if ok then
    (match t with DotnetRestore | DotnetRun _ => one_project d f | DotnetTest => d = tests_dir | _ => True end) /\
    saves (outputs d t) f f'
  else f' = f.

Lemma tree_save : forall p v f, tree f -> can_save p f -> tree (save p v f).
Proof.
  intros p v f T [B [N D]]. unfold save.
  destruct (tree_make_dirs (parent p) [] f T (or_introl eq_refl) (not_blocked _ _ B)) as [T' D'].
  apply tree_put; auto; [discriminate|]. left.
  destruct (make_dirs_spec (parent p) [] f p) as [E|[_ [_ [k [E L]]]]]; [congruence|].
  cbn [app] in E. apply (f_equal (@length _)) in E. rewrite firstn_length in E.
  unfold parent in E. destruct (exists_last N) as [q [c Q]]. rewrite Q, removelast_last, app_length in E. cbn [length] in E. lia.
Qed.
Lemma save_frame : forall p v f q, q <> p ->
  save p v f q = f q \/ (f q = None /\ save p v f q = Some Dir /\ exists r, r <> [] /\ p = q ++ r).
Proof.
  intros p v f q N. unfold save. rewrite put_other by exact N.
  destruct (make_dirs_pre (parent p) f q) as [E|[E [E' P]]]; [left; exact E|right].
  split; [exact E|]. split; [exact E'|]. apply pre_true in P. destruct P as [r R].
  destruct (list_eq_dec Coq.Strings.String.string_dec p []) as [->|Np].
  - unfold parent in R. cbn [removelast] in R. symmetry in R. apply app_eq_nil in R. destruct R. congruence.
  - destruct (exists_last Np) as [s [c Q]]. unfold parent in R. rewrite Q, removelast_last in R.
    exists (r ++ [c]). split; [apply snoc_not_nil|]. rewrite Q, R, app_assoc. reflexivity.
Qed.
Lemma saves_frame : forall l f f' q, saves l f f' -> (forall p v, In (p, v) l -> q <> p) ->
  f' q = f q \/ (f q = None /\ f' q = Some Dir /\ exists p v r, In (p, v) l /\ r <> [] /\ p = q ++ r).
Proof.
  induction l as [|[p v] l IH]; intros f f' q H N; cbn [saves] in H.
  - left. rewrite H. reflexivity.
  - destruct H as [_ H]. fold saves in H.
    destruct (save_frame p v f q (N p v (or_introl eq_refl))) as [E|[E [E' [r [R1 R2]]]]];
    destruct (IH _ _ q H (fun p v I => N p v (or_intror I))) as [F|[F [F' [p' [v' [r' [R3 [R4 R5]]]]]]]].
    + left. congruence.
    + right. split; [congruence|]. split; [exact F'|]. exists p', v', r'. split; [right; exact R3|auto].
    + right. split; [exact E|]. split; [congruence|]. exists p, v, r. split; [left; reflexivity|auto].
    + congruence.
Qed.
Lemma saves_last : forall l f f' p v, saves l f f' -> NoDup (map fst l) -> In (p, v) l ->
  f' p = Some (File v).
Proof.
  induction l as [|[q w] l IH]; intros f f' p v H N I'; [destruct I'|].
  destruct H as [_ H]. fold saves in H. cbn [map fst] in N. inversion N; subst. destruct I' as [E|I'].
  - injection E as -> ->. destruct (saves_frame _ _ _ p H) as [F|[F _]].
    + intros q u I' ->. apply H2. apply in_map_iff. exists (q, u). auto.
    + rewrite F. unfold save. apply put_same.
    + unfold save in F. rewrite put_same in F. discriminate.
  - eapply IH; eauto.
Qed.
Lemma saves_tree : forall l f f', saves l f f' -> tree f -> tree f'.
Proof.
  induction l as [|[q w] l IH]; intros f f' H T; [cbn in H; subst; exact T|].
  destruct H as [C H]. fold saves in H. eapply IH; [exact H|]. apply tree_save; assumption.
Qed.
Lemma outputs_area : forall d t p v, (match t with DotnetTest => d = tests_dir | _ => True end) ->
  In (p, v) (outputs d t) -> area d t p.
Proof.
  intros d t p v D I'. destruct t as [c r t| | | | | |out ios]; cbn [outputs In map] in I'; try (destruct I'; fail).
  - destruct I' as [E|[]]. injection E as <- <-. exists (Within ["target"; triple_name t; profile_dir r]).
    split; [unfold zones; apply in_or_app; right; apply in_or_app; right; left; reflexivity|].
    exists (library t), []. reflexivity.
  - destruct I' as [E|[]]. injection E as <- <-. subst d. exists (Within (tests_dir ++ ["bin"])). split.
    + unfold zones. apply in_or_app. right. apply in_or_app. right. apply in_or_app. left.
      apply in_flat_map. exists tests_dir. split; [cbn; intuition|right; left; reflexivity].
    + exists "Debug", ["net6.0"; "CppSharp.Runtime.dll"]. reflexivity.
  - exists (Within (d ++ out)). split; [unfold zones; apply in_or_app; right; apply in_or_app; right; left; reflexivity|].
    destruct I' as [E|[E|[E|[]]]]; injection E as <- <-; eexists _, []; rewrite <- app_assoc; reflexivity.
Qed.
Lemma ex_toolchain : toolchain ex_tools ex_product ex_dll "runtime".
Proof.
  assert (Dt : forall d t f f', ex_tools d t f true f' -> match t with DotnetTest => d = tests_dir | _ => True end)
    by (intros d t f f' [A _]; destruct t; auto).
  split.
  - intros d t f ok f' p H N. destruct ok; [|cbn in H; subst; left; reflexivity].
    pose proof (Dt _ _ _ _ H) as D. destruct H as [_ H].
    destruct (saves_frame _ _ _ p H) as [E|[E [E' [q [v [r [I' [R ->]]]]]]]].
    + intros q v I' ->. apply N. eapply outputs_area; eauto.
    + left. exact E.
    + right. split; [exact E|]. split; [exact E'|]. exists r. split; [exact R|]. eapply outputs_area; eauto.
  - intros d t f ok f' H T. destruct ok; [|cbn in H; subst; exact T]. destruct H as [_ H]. eapply saves_tree; eauto.
  - intros d c r t f f' [_ H]. cbn [outputs] in H. exact (saves_last _ _ _ (built_at r t) _ H ltac:(constructor; [intros []|constructor]) (or_introl eq_refl)).
  - intros d t f f' [A _] [->|[ios ->]]; exact A.
  - intros d f f' [_ H]. cbn [outputs] in H. exact (saves_last _ _ _ _ _ H ltac:(constructor; [intros []|constructor]) (or_introl eq_refl)).
  - intros d out ios f f' n [_ H] I'. eapply saves_last; [exact H| |].
    + cbn [outputs map fst]. repeat constructor; cbn [In]; intros K;
        repeat (destruct K as [K|K]; [rewrite !app_assoc in K; apply app_inj_tail in K; destruct K; discriminate|]); exact K.
    + cbn [outputs]. apply in_map_iff. exists n. auto.
Qed.

(** ** Playing the script *)

Definition free (f : fs) (d : path) : bool :=
  forallb (fun k => match f (firstn (S k) d) with None | Some Dir => true | _ => false end) (seq 0 (length d)).
Lemma free_spec : forall f d, free f d = true -> ~ blocked f d.
Proof.
  intros f d H [k [K [N [A B]]]]. unfold free in H. rewrite forallb_forall in H.
  destruct k as [|k]; [destruct d; destruct N; reflexivity|].
  specialize (H k ltac:(apply in_seq; lia)). destruct (f (firstn (S k) d)) as [[v| |t]|]; congruence.
Qed.
Definition dir_b (f : fs) (d : path) : bool :=
  match d with [] => true | _ => match f d with Some Dir => true | _ => false end end.
Lemma dir_b_spec : forall f d, dir_b f d = true -> is_dir f d.
Proof. intros f [|c d] H; [left; reflexivity|right]. cbn [dir_b] in H. destruct (f (c :: d)) as [[v| |t]|]; congruence. Qed.
Definition no_dir (f : fs) (p : path) : bool := match f p with Some Dir => false | _ => true end.
Lemma no_dir_spec : forall f p, no_dir f p = true -> f p <> Some Dir.
Proof. intros f p H E. unfold no_dir in H. rewrite E in H. discriminate. Qed.

Fixpoint play_saves (l : list (path * string)) (f : fs) : option fs :=
  match l with
  | [] => Some f
  | (p, v) :: r => if (free f (parent p) && negb (peqb p []) && no_dir f p && negb (pre pinvoke_dir p))%bool
                   then play_saves r (save p v f) else None
  end.
Definition present (f : fs) (p : path) : bool := match f p with None => false | _ => true end.
(** Exactly one of the three names. *)
Definition single (f : fs) : bool :=
  match present f project, present f project60, present f project61 with
  | true, false, false | false, true, false | false, false, true => true
  | _, _, _ => false
  end.
(** [skip]: the placeholder for Linux cannot be made. *)
Definition play (skip : bool) (c : command) (f : fs) : option fs :=
  match c with
  | Tool d t =>
      let ready := match t with
                   | DotnetRestore | DotnetRun _ => (peqb d pinvoke_dir && single f)%bool
                   | DotnetTest => peqb d tests_dir
                   | _ => true
                   end in
      if ready then play_saves (outputs d t) f else None
  | Rsync s d => match f s with
                 | Some (File v) => if (dir_b f (parent d) && no_dir f d && negb (pre pinvoke_dir d))%bool
                                    then Some (put d (Some (File v)) f) else None
                 | _ => None
                 end
  | MkdirTouch d n =>
      if (skip && string_eqb (triple_name LinuxGnu) (last d ""))%bool then Some f
      else if (free f d && negb (pre pinvoke_dir (d ++ [n])))%bool then
        let g := make_dirs [] d f in
        if dir_b g d then match g (d ++ [n]) with
                          | None => Some (put (d ++ [n]) (Some (File "")) g)
                          | Some (File _) => Some g
                          | _ => None
                          end else None
      else None
  | Mkdir d => if (free f d && negb (pre pinvoke_dir d))%bool then Some (make_dirs [] d f) else None
  | Touch p => if (dir_b f (parent p) && negb (pre pinvoke_dir p))%bool then
                 match f p with
                 | None => Some (put p (Some (File "")) f)
                 | Some (File _) => Some f
                 | _ => None
                 end else None
  | Mv a b => match f a with
              | Some (File v) => if (no_dir f b && dir_b f (parent b) && mem a three && mem b three)%bool
                                 then Some (put b (Some (File v)) (put a None f)) else None
              | _ => None
              end
  end.
Fixpoint plays (skip : bool) (cs : list command) (f : fs) : option fs :=
  match cs with [] => Some f | c :: r => match play skip c f with Some g => plays skip r g | None => None end end.

(** No project but the three. *)
Definition tidy (f : fs) : Prop :=
  forall m, is_project m -> f (pinvoke_dir ++ [m]) <> None -> In (pinvoke_dir ++ [m]) three.
Lemma tidy_put : forall p n f, tidy f -> pre pinvoke_dir p = false \/ In p three -> tidy (put p n f).
Proof.
  intros p n f T A m Pm E. destruct (path_dec (pinvoke_dir ++ [m]) p) as [<-|N].
  - destruct A as [A|A]; [|exact A]. exfalso. assert (pre pinvoke_dir (pinvoke_dir ++ [m]) = true) by (apply pre_true; eexists; reflexivity). congruence.
  - rewrite put_other in E by exact N. exact (T m Pm E).
Qed.
Lemma tidy_dirs : forall d f, tidy f -> pre pinvoke_dir d = false -> tidy (make_dirs [] d f).
Proof.
  intros d f T A m Pm E. destruct (make_dirs_pre d f (pinvoke_dir ++ [m])) as [K|[_ [_ K]]]; [rewrite K in E; exact (T m Pm E)|].
  exfalso. assert (pre pinvoke_dir d = true); [|congruence].
  eapply pre_trans; [|exact K]. apply pre_true. eexists; reflexivity.
Qed.
Lemma pre_parent : forall d p, pre d p = false -> pre d (parent p) = false.
Proof.
  intros d p H. destruct (pre d (parent p)) eqn:E; [|reflexivity]. rewrite <- H. symmetry.
  eapply pre_trans; [exact E|]. unfold parent. destruct (list_eq_dec Coq.Strings.String.string_dec p []) as [->|N]; [reflexivity|].
  destruct (exists_last N) as [q [c ->]]. rewrite removelast_last. apply pre_true. eexists; reflexivity.
Qed.
Lemma play_saves_spec : forall l f f', play_saves l f = Some f' -> tidy f -> saves l f f' /\ tidy f'.
Proof.
  induction l as [|[p v] l IH]; intros f f' H T; cbn [play_saves] in H.
  - injection H as <-. split; [reflexivity|exact T].
  - match goal with X : (if ?c then _ else _) = _ |- _ => destruct c eqn:C; [|discriminate] end.
    rewrite !andb_true_iff, !negb_true_iff, peqb_false in C. destruct C as [[[C1 C2] C3] C4].
    destruct (IH _ _ H) as [A B].
    + unfold save. apply tidy_put; [|auto]. apply tidy_dirs; [exact T|]. apply pre_parent. exact C4.
    + split; [|exact B]. split; [split; [apply free_spec; exact C1|split; [exact C2|apply no_dir_spec; exact C3]]|exact A].
Qed.
Lemma single_spec : forall f, single f = true -> tidy f -> one_project pinvoke_dir f.
Proof.
  intros f H T. unfold single in H.
  assert (K : forall n p, p = pinvoke_dir ++ [n] -> In p three -> is_project n -> f p <> None ->
    (forall q, In q three -> f q <> None -> q = p) -> one_project pinvoke_dir f).
  { intros n p -> I' Pn E U. exists n. split; [exact Pn|]. split; [exact E|]. intros m Pm Em.
    specialize (U _ (T m Pm Em) Em). apply app_inv_head in U. congruence. }
  unfold present in H.
  destruct (f project) eqn:E0, (f project60) eqn:E1, (f project61) eqn:E2; try discriminate;
    [eapply (K "codegen.csproj" project)|eapply (K "codegen60.csproj" project60)|eapply (K "codegen61.csproj" project61)];
    try reflexivity; try (cbn; auto; fail); try congruence;
    try (exists "codegen"; reflexivity); try (exists "codegen60"; reflexivity); try (exists "codegen61"; reflexivity);
    intros q [<-|[<-|[<-|[]]]] Q; congruence.
Qed.
Lemma play_spec : forall skip c f f', play skip c f = Some f' -> tidy f ->
  step ex_tools skip f c true f' /\ tidy f'.
Proof.
  intros skip c f f' H T. destruct c as [d t|s d|d n|d|p|a b]; cbn [play] in H.
  - match goal with X : (if ?c then _ else _) = _ |- _ => destruct c eqn:C; [|discriminate] end.
    destruct (play_saves_spec _ _ _ H T) as [A B]. split; [|exact B]. apply step_tool. split; [|exact A].
    destruct t; auto; try (apply andb_true_iff in C; destruct C as [C1 C2]; apply peqb_true in C1; subst d; apply single_spec; assumption).
    apply peqb_true. exact C.
  - destruct (f s) as [[v| |t]|] eqn:E; try discriminate.
    match goal with X : (if ?c then _ else _) = _ |- _ => destruct c eqn:C; [|discriminate] end. injection H as <-.
    rewrite !andb_true_iff, negb_true_iff in C. destruct C as [[C1 C2] C3]. split.
    + apply step_rsync. apply rsync_copies; [exact E|apply dir_b_spec; exact C1|apply no_dir_spec; exact C2].
    + apply tidy_put; auto.
  - destruct (skip && string_eqb (triple_name LinuxGnu) (last d ""))%bool eqn:K.
    { injection H as <-. split; [|exact T]. apply andb_true_iff in K. destruct K as [-> _]. apply step_no_placeholder.
      apply (mkdir_not true d f 0); [right; reflexivity|]. intros [k [_ [N _]]]. cbn [firstn] in N. destruct k; destruct N; reflexivity. }
    match goal with X : (if ?c then _ else _) = _ |- _ => destruct c eqn:C; [|discriminate] end.
    rewrite andb_true_iff, negb_true_iff in C. destruct C as [C1 C2].
    assert (Td : tidy (make_dirs [] d f)).
    { apply tidy_dirs; [exact T|]. pose proof (pre_parent _ _ C2) as Q. unfold parent in Q. rewrite removelast_last in Q. exact Q. }
    destruct (dir_b (make_dirs [] d f) d) eqn:B; [|discriminate]. apply dir_b_spec in B.
    destruct (make_dirs [] d f (d ++ [n])) as [[v| |t]|] eqn:E; try discriminate; injection H as <-.
    + split; [|exact Td]. eapply step_placeholder; [apply mkdir_made; apply free_spec; exact C1|].
      eapply touch_old; [unfold parent; rewrite removelast_last; exact B|exact E].
    + split; [|apply tidy_put; auto]. eapply step_placeholder; [apply mkdir_made; apply free_spec; exact C1|].
      apply touch_new; [unfold parent; rewrite removelast_last; exact B|exact E].
  - match goal with X : (if ?c then _ else _) = _ |- _ => destruct c eqn:C; [|discriminate] end.
    rewrite andb_true_iff, negb_true_iff in C. destruct C as [C1 C2]. injection H as <-.
    split; [apply step_mkdir, mkdir_made, free_spec; exact C1|apply tidy_dirs; assumption].
  - match goal with X : (if ?c then _ else _) = _ |- _ => destruct c eqn:C; [|discriminate] end.
    rewrite andb_true_iff, negb_true_iff in C. destruct C as [C1 C2]. apply dir_b_spec in C1.
    destruct (f p) as [[v| |t]|] eqn:E; try discriminate; injection H as <-.
    + split; [apply step_touch; eapply touch_old; eauto|exact T].
    + split; [apply step_touch; apply touch_new; auto|apply tidy_put; auto].
  - destruct (f a) as [[v| |t]|] eqn:E; try discriminate.
    match goal with X : (if ?c then _ else _) = _ |- _ => destruct c eqn:C; [|discriminate] end. injection H as <-.
    rewrite !andb_true_iff in C. destruct C as [[[C1 C2] C3] C4]. apply mem_true in C3, C4. split.
    + apply step_mv. eapply mv_renames; [exact E|discriminate|apply no_dir_spec; exact C1|apply dir_b_spec; exact C2].
    + apply tidy_put; [|auto]. apply tidy_put; auto.
Qed.
Lemma plays_spec : forall skip cs f f', plays skip cs f = Some f' -> tidy f -> exec ex_tools skip cs f true f'.
Proof.
  induction cs as [|c cs IH]; intros f f' H T; cbn [plays] in H.
  - injection H as <-. constructor.
  - destruct (play skip c f) as [g|] eqn:P; [|discriminate]. destruct (play_spec _ _ _ _ P T) as [A B].
    eapply exec_next; [exact A|]. exact (IH _ _ H B).
Qed.

(** ** A checkout: the links, the project, and the directories they are in *)

Fixpoint heads (done todo : path) : list path :=
  match todo with [] => [] | [_] => [] | c :: r => (done ++ [c]) :: heads (done ++ [c]) r end.
Definition ex_entries : list (path * node) :=
  map (fun l => (fst l, Link (snd l))) links ++ [(project, File "<Project/>")].
Definition ex_dirs : list path :=
  flat_map (fun e => heads [] (fst e)) ex_entries ++
  [["client"; "cs"]; ["client"; "cs"; "tests"]; ["demos"; "unity_states"; "cs"]; ["demos"; "unity_states"; "cs"; "src"]].
Definition ex_fs : fs := fun p =>
  if mem p ex_dirs then Some Dir
  else match find (fun e => peqb p (fst e)) ex_entries with Some e => Some (snd e) | None => None end.
Definition ex_all : list path := ex_dirs ++ map fst ex_entries.
Lemma ex_known : forall p, ex_fs p <> None -> In p ex_all.
Proof.
  intros p H. unfold ex_fs in H. destruct (mem p ex_dirs) eqn:M.
  - apply in_or_app. left. apply mem_true. exact M.
  - destruct (find (fun e => peqb p (fst e)) ex_entries) as [e|] eqn:F; [|congruence].
    apply find_some in F. destruct F as [F1 F2]. apply peqb_true in F2. subst p.
    apply in_or_app. right. apply in_map. exact F1.
Qed.
Lemma ex_clean : clean "<Project/>" ex_fs.
Proof.
  split; try (vm_compute; reflexivity).
  - intros p c H. apply ex_known in H.
    assert (A : forall q, In q ex_all -> dir_b ex_fs (parent q) = true).
    { apply forallb_forall. vm_compute. reflexivity. }
    specialize (A _ H). unfold parent in A. rewrite removelast_last in A. apply dir_b_spec in A. exact A.
  - assert (A : forallb (fun l => match ex_fs (fst l) with
                                  | Some (Link t) => peqb t (snd l) | _ => false end) links = true) by (vm_compute; reflexivity).
    rewrite forallb_forall in A. intros p t I'. specialize (A _ I'). cbn [fst snd] in A.
    destruct (ex_fs p) as [[v| |u]|]; try discriminate. apply peqb_true in A. subst. reflexivity.
  - intros n _ H. change (ex_fs (pinvoke_dir ++ [n]) <> None) in H. apply ex_known in H.
    assert (A : forallb (fun q => (negb (peqb (parent q) pinvoke_dir) || peqb q project)%bool) ex_all = true) by (vm_compute; reflexivity).
    rewrite forallb_forall in A. specialize (A _ H). apply orb_true_iff in A. destruct A as [A|A].
    + unfold parent in A. rewrite removelast_last in A. vm_compute in A. discriminate.
    + apply peqb_true in A. apply (f_equal (fun l => last l "")) in A. rewrite last_last in A. exact A.
Qed.
Lemma ex_tidy : tidy ex_fs.
Proof.
  intros m Pm H. assert (m = "codegen.csproj") by (apply (clean_alone _ _ ex_clean); assumption).
  subst m. left. reflexivity.
Qed.
