(** C57: Android builds of the Unity demo package the native libraries that were built. *)
From Verif Require Import BuildAndroid PropertiesBuild BuildExample.
Import Coq.Strings.String.StringSyntax.
Open Scope string_scope.
Open Scope list_scope.
Open Scope nat_scope.

(** ** Frames *)

Lemma beneath_spec : forall d p, beneath d p = true <-> exists r, p = d ++ r.
Proof. exact pre_true. Qed.
Lemma beneath_snoc : forall d p c, beneath d p = true -> beneath d (p ++ [c]) = true.
Proof. intros d p c H. apply beneath_spec in H. destruct H as [r ->]. apply beneath_spec. exists (r ++ [c]). apply app_assoc_reverse. Qed.
Lemma tree_delete : forall f p, tree f -> tree (delete p f).
Proof.
  intros f p T q c E. unfold delete in *. destruct (beneath p (q ++ [c])) eqn:B; [congruence|].
  destruct (T q c E) as [->|D]; [left; reflexivity|]. right. destruct (beneath p q) eqn:B'; [|exact D].
  apply (beneath_snoc _ _ c) in B'. congruence.
Qed.
Lemma unity_shape : forall p, unitys_own p -> exists c r, p = "demos" :: "unity_states" :: "unity" :: c :: r /\ (c = "Library" \/ c = "Temp").
Proof. intros p [c [r [-> C]]]. exists c, r. split; [reflexivity|exact C]. Qed.
Lemma unity_below : forall p r, unitys_own p -> unitys_own (p ++ r).
Proof. intros p r [c [s [-> C]]]. exists c, (s ++ r). split; [rewrite <- app_assoc; reflexivity|exact C]. Qed.
(** What the links and their targets rest on is not Unity's own. *)
Lemma ready_frame : forall f f', ready f -> tree f' -> (forall p, ~ unitys_own p -> f' p = f p) -> ready f'.
Proof.
  intros f f' R T F.
  assert (N : forall p, (forall c r, p <> "demos" :: "unity_states" :: "unity" :: c :: r \/ c = "Assets") -> f' p = f p).
  { intros p H. apply F. intros O. apply unity_shape in O. destruct O as [c [r [E C]]].
    destruct (H c r) as [K|K]; [congruence|]. destruct C; congruence. }
  split.
  - exact T.
  - intros p t I'. rewrite N; [apply (rd_links f R); exact I'|].
    assert (A : exists r, p = "demos" :: "unity_states" :: "unity" :: "Assets" :: r).
    { cbn [links native_links managed_links runtime_link map app In fst snd plugins] in I'.
      repeat (destruct I' as [I'|I']; [injection I' as <- _; eexists; reflexivity|]). destruct I'. }
    destruct A as [r ->]. intros c s. destruct (Coq.Strings.String.string_dec c "Assets"); [auto|left; congruence].
  - rewrite N; [apply R|]. intros c r. left. discriminate.
  - rewrite N; [apply R|]. intros c r. left. discriminate.
  - rewrite N; [apply R|]. intros c r. left. discriminate.
  - unfold none_or_dir. rewrite N; [apply R|]. intros c r. left. discriminate.
  - intros t. unfold none_or_dir. rewrite N; [apply R|]. intros c r. left. discriminate.
  - intros t. unfold none_or_file. rewrite N; [apply R|]. intros c r. left. discriminate.
Qed.

Definition outside (to : path) (libs : list path) (p : path) : Prop :=
  forall lib, In lib libs -> ~ exists r, p = (to ++ lib) ++ r.
Lemma copy_frame : forall src dst f ok f' p, copy_file src dst f ok f' -> p <> dst -> f' p = f p.
Proof. intros src dst f ok f' p H N. destruct H; try reflexivity; apply put_other; exact N. Qed.
Lemma delete_frame : forall d f p, (~ exists r, p = d ++ r) -> delete d f p = f p.
Proof. intros d f p N. unfold delete. destruct (beneath d p) eqn:B; [|reflexivity]. apply beneath_spec in B. contradiction. Qed.
Lemma desymbolicate_frame : forall from to libs f ok f' p, desymbolicate from to libs f ok f' -> outside to libs p -> f' p = f p.
Proof.
  intros from to libs f ok f' p H. induction H as [f|libs f|lib libs f g C|lib libs f g ok h C H IH]; intros O.
  - reflexivity.
  - reflexivity.
  - assert (N : ~ exists r, p = (to ++ lib) ++ r) by (apply O; left; reflexivity).
    rewrite (copy_frame _ _ _ _ _ p C); [apply delete_frame; exact N|]. intros ->. apply N. exists []. symmetry. apply app_nil_r.
  - assert (N : ~ exists r, p = (to ++ lib) ++ r) by (apply O; left; reflexivity).
    rewrite IH by (intros l L; apply O; right; exact L).
    rewrite (copy_frame _ _ _ _ _ p C); [apply delete_frame; exact N|]. intros ->. apply N. exists []. symmetry. apply app_nil_r.
Qed.
Lemma copy_tree : forall src dst f ok f', dst <> [] -> copy_file src dst f ok f' -> tree f -> tree f'.
Proof.
  intros src dst f ok f' N H T. destruct H as [v O D E| |v D E]; try exact T; apply tree_put; auto; try discriminate; left; congruence.
Qed.
Lemma desymbolicate_tree : forall from to libs f ok f', to <> [] -> desymbolicate from to libs f ok f' -> tree f -> tree f'.
Proof.
  intros from to libs f ok f' N H. assert (M : forall lib : path, to ++ lib <> []) by (intros l E; apply app_eq_nil in E; destruct E; congruence).
  induction H as [f|libs f|lib libs f g C|lib libs f g ok h C H IH]; intros T; auto.
  - eapply copy_tree; [|exact C|apply tree_delete; exact T]. apply M.
  - apply IH. eapply copy_tree; [|exact C|apply tree_delete; exact T]. apply M.
Qed.

(** ** What the hook may change: the libraries in the Gradle project, and nothing else *)

Theorem C57_only_the_packaged_libraries_change : forall project f ok f',
  on_android_build [repo_settings] project f ok f' ->
  forall p, (forall abi t r, abi_triple abi t -> p <> packaged project abi ++ r) -> f' p = f p.
Proof.
  intros project f ok f' H p N. cbn [on_android_build get_defaults] in H.
  eapply desymbolicate_frame; [exact H|]. intros lib L [r E]. cbn [repo_settings lib_names In] in L.
  destruct L as [<-|[<-|[]]].
  - apply (N "arm64-v8a" AndroidArm64 r (or_introl (conj eq_refl eq_refl))). unfold packaged. rewrite E, <- !app_assoc. reflexivity.
  - apply (N "armeabi-v7a" AndroidArm r (or_intror (conj eq_refl eq_refl))). unfold packaged. rewrite E, <- !app_assoc. reflexivity.
Qed.
Print Assumptions C57_only_the_packaged_libraries_change.

(** The same with any settings: only what has the name of a library (or was in a directory
    of that name) is changed. *)
Theorem C57_only_the_libraries_named_change : forall s project f ok f',
  on_android_build [s] project f ok f' ->
  forall p, (forall lib r, In lib (lib_names s) -> p <> project ++ ["src"; "main"; "jniLibs"] ++ lib ++ r) -> f' p = f p.
Proof.
  intros s project f ok f' H p N. cbn [on_android_build get_defaults] in H.
  eapply desymbolicate_frame; [exact H|]. intros lib L [r E]. apply (N lib r L). rewrite E, <- !app_assoc. reflexivity.
Qed.
Print Assumptions C57_only_the_libraries_named_change.

(** Without settings, or with more than one, the build fails and nothing is changed. *)
Theorem C57_exactly_one_settings : forall found project f ok f',
  on_android_build found project f ok f' ->
  (forall s, found <> [s]) -> ok = false /\ f' = f.
Proof.
  intros found project f ok f' H N. unfold on_android_build in H. destruct found as [|s [|s' l]]; cbn [get_defaults] in H; auto.
  destruct (N s). reflexivity.
Qed.
Print Assumptions C57_exactly_one_settings.

Lemma android_frame : forall found project f ok f', unitys_own project ->
  (forall s, In s found -> s = repo_settings) -> on_android_build found project f ok f' ->
  (tree f -> tree f') /\ forall p, ~ unitys_own p -> f' p = f p.
Proof.
  intros found project f ok f' U S' H. destruct found as [|s [|s' l]].
  - destruct H as [_ ->]. auto.
  - assert (s = repo_settings) by (apply S'; left; reflexivity). subst s. split.
    + intros T. cbn [on_android_build get_defaults] in H. eapply desymbolicate_tree; [|exact H|exact T].
      intros E. apply app_eq_nil in E. destruct E as [_ E]. discriminate.
    + intros p N. eapply C57_only_the_packaged_libraries_change; [exact H|].
      intros abi t r _ ->. apply N. apply unity_below. apply unity_below. exact U.
  - destruct H as [_ ->]. auto.
Qed.
Lemma android_ready : forall found project f ok f', unitys_own project ->
  (forall s, In s found -> s = repo_settings) -> on_android_build found project f ok f' -> ready f -> ready f'.
Proof.
  intros found project f ok f' U S' H R. destruct (android_frame found project f ok f' U S' H) as [T F].
  eapply ready_frame; [exact R|apply T; apply R|exact F].
Qed.
Lemma work_ready : forall f g, work f g -> ready f -> ready g.
Proof.
  intros f g H R. induction H as [|tools product dll runtime full host env args g ok h H IH TC M E|g h H IH [T F]|found project g ok h H IH U S' E].
  - exact R.
  - eapply exec_ready; eauto.
  - eapply ready_frame; eauto.
  - eapply android_ready; eauto.
Qed.

(** ** What is packaged *)

Lemma abi_link : forall abi t, abi_triple abi t -> exists target,
  In (t, plugins_dir repo_settings ++ [abi; "libunity_states.so"], target) native_links.
Proof.
  intros abi t [[-> ->]|[-> ->]]; eexists; cbn [native_links In].
  - right. right. right. left. reflexivity.
  - right. right. left. reflexivity.
Qed.
Lemma own_not_placed : forall t p, unitys_own p -> p <> placed_at t.
Proof. intros t p U E. apply unity_shape in U. destruct U as [c [r [K _]]]. rewrite K in E. discriminate. Qed.

(** After an Android build that ends well, each packaged library is a plain file with the
    contents that its link in Assets/Plugins opened before (and still opens). *)
Theorem C57_packages_what_the_links_open : forall text start f project f',
  clean text start -> work start f -> unitys_own project ->
  on_android_build [repo_settings] project f true f' ->
  forall abi t, abi_triple abi t -> exists v,
    opens f (plugins ++ ["Constellation"; "Android"; abi; "libunity_states.so"]) v /\
    opens f' (plugins ++ ["Constellation"; "Android"; abi; "libunity_states.so"]) v /\
    f' (packaged project abi) = Some (File v).
Proof.
  intros text start f project f' C W U H abi t A.
  pose proof (work_ready _ _ W (clean_ready _ _ C)) as R.
  assert (R' : ready f').
  { eapply android_ready; [exact U| |exact H|exact R]. intros s [<-|[]]. reflexivity. }
  assert (Same : f' (placed_at t) = f (placed_at t)).
  { eapply C57_only_the_packaged_libraries_change; [exact H|]. intros a u r _ E. symmetry in E. revert E.
    apply own_not_placed. apply unity_below. apply unity_below. exact U. }
  assert (K : exists v, f (placed_at t) = Some (File v) /\ f' (packaged project abi) = Some (File v)).
  { cbn [on_android_build get_defaults repo_settings lib_names] in H.
    set (to := project ++ ["src"; "main"; "jniLibs"]) in *.
    assert (Ut : forall l, unitys_own (to ++ l)) by (intros l; apply unity_below; apply unity_below; exact U).
    assert (Cp : forall g lib a u g', ready g -> lib = [a; "libunity_states.so"] -> abi_triple a u ->
       copy_file (plugins_dir repo_settings ++ lib) (to ++ lib) (delete (to ++ lib) g) true g' ->
       ready g' /\ (forall w, g' (placed_at w) = g (placed_at w)) /\
       exists v, g (placed_at u) = Some (File v) /\ g' (to ++ lib) = Some (File v)).
    { intros g lib a u g' Rg -> Au Cg.
      assert (Dl : forall w, delete (to ++ [a; "libunity_states.so"]) g (placed_at w) = g (placed_at w)).
      { intros w. apply delete_frame. intros [r E]. symmetry in E. revert E. apply own_not_placed. apply unity_below. apply Ut. }
      assert (Rd : ready (delete (to ++ [a; "libunity_states.so"]) g)).
      { eapply ready_frame; [exact Rg|apply tree_delete; apply Rg|]. intros p N. apply delete_frame. intros [r ->]. apply N. apply unity_below. apply Ut. }
      assert (Fr : forall p, ~ unitys_own p -> g' p = g p).
      { intros p N. rewrite (copy_frame _ _ _ _ _ p Cg) by (intros ->; apply N; apply Ut).
        apply delete_frame. intros [r ->]. apply N. apply unity_below. apply Ut. }
      split; [|split].
      - eapply ready_frame; [exact Rg| |exact Fr]. eapply copy_tree; [|exact Cg|apply tree_delete; apply Rg].
        intros E. apply app_eq_nil in E. destruct E as [_ E]. discriminate.
      - intros w. apply Fr. intros O. exact (own_not_placed w _ O eq_refl).
      - inversion Cg as [v O D E X Y| |]; subst. exists v. split; [|apply put_same].
        destruct (abi_link a u Au) as [target L].
        apply (native_opens _ u _ _ v Rd L) in O. rewrite Dl in O. exact O. }
    inversion H as [| | |lib1 libs1 f1 g1 ok1 h1 C1 H1]; subst.
    inversion H1 as [| | |lib2 libs2 f2 g2 ok2 h2 C2 H2]; subst. inversion H2; subst.
    destruct (Cp _ _ "arm64-v8a" AndroidArm64 _ R eq_refl (or_introl (conj eq_refl eq_refl)) C1) as [R1 [P1 [v1 [V1 W1]]]].
    destruct (Cp _ _ "armeabi-v7a" AndroidArm _ R1 eq_refl (or_intror (conj eq_refl eq_refl)) C2) as [R2 [P2 [v2 [V2 W2]]]].
    assert (Pk : packaged project abi = to ++ [abi; "libunity_states.so"]) by (unfold packaged, to; rewrite <- app_assoc; reflexivity).
    rewrite Pk. destruct A as [[-> ->]|[-> ->]].
    - exists v1. split; [exact V1|]. rewrite <- W1. rewrite (copy_frame _ _ _ _ _ _ C2).
      + apply delete_frame. intros [r E]. apply (f_equal (skipn (length to))) in E.
        rewrite <- app_assoc, !skipn_app, !skipn_all, !Nat.sub_diag in E. discriminate E.
      + intros E. apply app_inv_head in E. discriminate E.
    - exists v2. split; [rewrite <- P1; exact V2|exact W2]. }
  destruct K as [v [V P]]. exists v. destruct (abi_link abi t A) as [target L].
  split; [|split; [|exact P]].
  - apply (native_opens f t _ _ v R L). exact V.
  - apply (native_opens f' t _ _ v R' L). rewrite Same. exact V.
Qed.
Print Assumptions C57_packages_what_the_links_open.

(** ** The whole way, from the sources to the package *)

Lemma native_ready : forall f tools product dll runtime host env args f', ready f ->
  toolchain tools product dll runtime -> is_mac host ->
  runs tools false host env args f true f' -> forall t, t <> MacIntel ->
  (asked env args host t -> exists v, f' (placed_at t) = Some (File v) /\ chosen args product t v) /\
  (~ asked env args host t -> f' (placed_at t) = match f (placed_at t) with None => Some (File "") | x => x end).
Proof.
  intros f tools product dll runtime host env args f' R TC M E t NI.
  destruct (run_library _ _ _ _ _ _ _ TC M t f true f' R E) as [_ [v [Mv' [_ K]]]].
  destruct (K eq_refl) as [N Old']. rewrite (asked_flags env args host t M). split.
  - intros A. apply N in A. subst v. cbn [means] in Mv'. exists (product (f_release (options env args)) t).
    split; [exact Mv'|apply chosen_product].
  - intros A. destruct v.
    + destruct (NI (Old' eq_refl)).
    + cbn [means] in Mv'. destruct Mv' as [Mv'|[Z' _]]; [|discriminate Z']. rewrite Mv'.
      destruct (f (placed_at t)); reflexivity.
    + destruct A. apply N. reflexivity.
Qed.
Lemma abi_not_intel : forall abi t, abi_triple abi t -> t <> MacIntel.
Proof. intros abi t [[_ ->]|[_ ->]]; discriminate. Qed.
Lemma unity_placed : forall (f g : fs) t, (forall p, ~ unitys_own p -> g p = f p) -> g (placed_at t) = f (placed_at t).
Proof. intros f g t F. apply F. intros O. exact (own_not_placed t _ O eq_refl). Qed.

(** A complete run of the build script, then Unity's work, then a complete Android build,
    after any previous work: if the run was asked to build for Android, the package has the
    libraries just built, in the profile asked for. *)
Theorem C57_packages_what_was_built : forall text start f tools product dll runtime host env args g h project f',
  clean text start -> work start f -> toolchain tools product dll runtime -> is_mac host ->
  runs tools false host env args f true g -> unity_works g h -> unitys_own project ->
  on_android_build [repo_settings] project h true f' ->
  f_android env = true \/ given args "a" ->
  forall abi t, abi_triple abi t -> exists v,
    f' (packaged project abi) = Some (File v) /\ chosen args product t v.
Proof.
  intros text start f tools product dll runtime host env args g h project f' C W TC M E [T F] U H An abi t A.
  pose proof (work_ready _ _ W (clean_ready _ _ C)) as R.
  assert (Ask : asked env args host t) by (destruct A as [[_ ->]|[_ ->]]; exact An).
  destruct (proj1 (native_ready _ _ _ _ _ _ _ _ _ R TC M E t (abi_not_intel _ _ A)) Ask) as [v [V Ch]].
  assert (Wh : work start h).
  { eapply work_unity; [|split; [exact T|exact F]]. eapply work_script; eauto. }
  destruct (C57_packages_what_the_links_open _ _ _ _ _ C Wh U H abi t A) as [w [O [_ P]]].
  destruct (abi_link abi t A) as [target L].
  apply (native_opens h t _ _ w (work_ready _ _ Wh (clean_ready _ _ C)) L) in O.
  rewrite (unity_placed _ _ t F), V in O. exists v. split; [congruence|exact Ch].
Qed.
Print Assumptions C57_packages_what_was_built.

(** If not, it has what was there before; libraries never built are packaged as empty files,
    without an error. *)
Theorem C57_packages_old_or_empty_libraries_refuted : forall text start f tools product dll runtime host env args g h project f',
  clean text start -> work start f -> toolchain tools product dll runtime -> is_mac host ->
  runs tools false host env args f true g -> unity_works g h -> unitys_own project ->
  on_android_build [repo_settings] project h true f' ->
  f_android env = false -> ~ given args "a" ->
  forall abi t, abi_triple abi t ->
  (forall v, opens f (plugins ++ ["Constellation"; "Android"; abi; "libunity_states.so"]) v ->
     f' (packaged project abi) = Some (File v)) /\
  ((forall v, ~ opens f (plugins ++ ["Constellation"; "Android"; abi; "libunity_states.so"]) v) ->
     f' (packaged project abi) = Some (File "")).
Proof.
  intros text start f tools product dll runtime host env args g h project f' C W TC M E [T F] U H An Ag abi t A.
  pose proof (work_ready _ _ W (clean_ready _ _ C)) as R.
  assert (Ask : ~ asked env args host t) by (destruct A as [[_ ->]|[_ ->]]; intros [X|X]; congruence).
  pose proof (proj2 (native_ready _ _ _ _ _ _ _ _ _ R TC M E t (abi_not_intel _ _ A)) Ask) as V.
  assert (Wh : work start h).
  { eapply work_unity; [|split; [exact T|exact F]]. eapply work_script; eauto. }
  destruct (C57_packages_what_the_links_open _ _ _ _ _ C Wh U H abi t A) as [w [O [_ P]]].
  destruct (abi_link abi t A) as [target L].
  apply (native_opens h t _ _ w (work_ready _ _ Wh (clean_ready _ _ C)) L) in O.
  rewrite (unity_placed _ _ t F), V in O. split.
  - intros v Ov. apply (native_opens f t _ _ v R L) in Ov. rewrite Ov in O. congruence.
  - intros N. destruct (rd_places f R t) as [X|[u X]]; rewrite X in O; [congruence|].
    destruct (N u). apply (native_opens f t _ _ u R L). exact X.
Qed.
Print Assumptions C57_packages_old_or_empty_libraries_refuted.

(** The build can end well exactly if the links open something and the Gradle project has
    the directories: a link that leads nowhere stops it. *)
Theorem C57_succeeds_iff_libraries_are_there : forall text start f project,
  clean text start -> work start f -> unitys_own project ->
  ((exists f', on_android_build [repo_settings] project f true f') <->
   has_places project f /\
   forall abi t, abi_triple abi t -> exists v, opens f (plugins ++ ["Constellation"; "Android"; abi; "libunity_states.so"]) v).
Proof.
  intros text start f project C W U. pose proof (work_ready _ _ W (clean_ready _ _ C)) as R.
  set (to := project ++ ["src"; "main"; "jniLibs"]).
  assert (Par : forall abi, parent (packaged project abi) = to ++ [abi] /\ parent (to ++ [abi; "libunity_states.so"]) = to ++ [abi]).
  { intros abi. unfold parent, packaged, to.
    replace (project ++ ["src"; "main"; "jniLibs"; abi; "libunity_states.so"]) with ((project ++ ["src"; "main"; "jniLibs"; abi]) ++ ["libunity_states.so"])
      by (rewrite <- app_assoc; reflexivity).
    replace ((project ++ ["src"; "main"; "jniLibs"]) ++ [abi; "libunity_states.so"]) with ((project ++ ["src"; "main"; "jniLibs"; abi]) ++ ["libunity_states.so"])
      by (rewrite <- !app_assoc; reflexivity).
    rewrite !removelast_last, <- app_assoc. split; reflexivity. }
  assert (Ne : forall abi, to ++ [abi] <> []) by (intros abi E; apply app_eq_nil in E; destruct E as [_ E]; discriminate).
  assert (Off : forall (a b : string) (r : path), to ++ [a] <> (to ++ [b; "libunity_states.so"]) ++ r).
  { intros a b r E. rewrite <- app_assoc in E. apply app_inv_head in E. discriminate E. }
  split.
  - intros [f' H]. split.
    + intros abi t A. rewrite (proj1 (Par abi)).
      cbn [on_android_build get_defaults repo_settings lib_names] in H. fold to in H.
      inversion H as [| | |lib1 libs1 f1 g1 ok1 h1 C1 H1]; subst.
      inversion H1 as [| | |lib2 libs2 f2 g2 ok2 h2 C2 H2]; subst.
      assert (D1 : forall (a b : string), delete (to ++ [b; "libunity_states.so"]) f (to ++ [a]) = f (to ++ [a])).
      { intros a b. apply delete_frame. intros [r E]. exact (Off _ _ _ E). }
      destruct A as [[-> ->]|[-> ->]].
      * inversion C1 as [v O D E X Y| |]; subst. rewrite (proj2 (Par _)) in D. destruct D as [D|D]; [destruct (Ne _ D)|].
        rewrite D1 in D. exact D.
      * inversion C2 as [v O D E X Y| |]; subst. rewrite (proj2 (Par _)) in D. destruct D as [D|D]; [destruct (Ne _ D)|].
        rewrite delete_frame in D by (intros [r K]; exact (Off _ _ _ K)).
        rewrite (copy_frame _ _ _ _ _ _ C1) in D by (intros K; apply (Off "armeabi-v7a" "arm64-v8a" []); rewrite app_nil_r; exact K).
        rewrite D1 in D. exact D.
    + intros abi t A. destruct (C57_packages_what_the_links_open _ _ _ _ _ C W U H abi t A) as [v [O _]]. exists v. exact O.
  - intros [P O].
    assert (Ut : forall l, unitys_own (to ++ l)) by (intros l; apply unity_below; apply unity_below; exact U).
    assert (Step : forall g a t, abi_triple a t -> ready g -> g (to ++ [a]) = Some Dir -> g (placed_at t) = f (placed_at t) ->
      exists g', copy_file (plugins_dir repo_settings ++ [a; "libunity_states.so"]) (to ++ [a; "libunity_states.so"])
        (delete (to ++ [a; "libunity_states.so"]) g) true g').
    { intros g a t A Rg D Pl. destruct (O a t A) as [v Ov]. destruct (abi_link a t A) as [target L].
      assert (Rd : ready (delete (to ++ [a; "libunity_states.so"]) g)).
      { eapply ready_frame; [exact Rg|apply tree_delete; apply Rg|]. intros p N. apply delete_frame. intros [r ->]. apply N. apply unity_below. apply Ut. }
      eexists. apply (copy_done _ _ _ v).
      - apply (native_opens _ t _ _ v Rd L). rewrite delete_frame.
        + rewrite Pl. apply (native_opens f t _ _ v R L). exact Ov.
        + intros [r E]. symmetry in E. revert E. apply own_not_placed. apply unity_below. apply Ut.
      - right. rewrite (proj2 (Par a)). rewrite delete_frame by (intros [r E]; exact (Off _ _ _ E)). exact D.
      - unfold delete. rewrite (proj2 (beneath_spec _ _)); [reflexivity|]. exists []. symmetry. apply app_nil_r. }
    assert (A1 : abi_triple "arm64-v8a" AndroidArm64) by (left; split; reflexivity).
    assert (A2 : abi_triple "armeabi-v7a" AndroidArm) by (right; split; reflexivity).
    destruct (Step f _ _ A1 R) as [g1 C1]; [rewrite <- (proj1 (Par _)); exact (P _ _ A1)|reflexivity|].
    assert (Fr : forall p, ~ (exists r, p = (to ++ ["arm64-v8a"; "libunity_states.so"]) ++ r) -> g1 p = f p).
    { intros p N. rewrite (copy_frame _ _ _ _ _ _ C1); [apply delete_frame; exact N|]. intros ->. apply N. exists []. symmetry. apply app_nil_r. }
    assert (R1 : ready g1).
    { eapply ready_frame; [exact R| |].
      - eapply copy_tree; [|exact C1|apply tree_delete; apply R]. intros E. apply app_eq_nil in E. destruct E as [_ E]. discriminate.
      - intros p N. apply Fr. intros [r ->]. apply N. apply unity_below. apply Ut. }
    destruct (Step g1 _ _ A2 R1) as [g2 C2].
    { rewrite Fr by (intros [r E]; exact (Off _ _ _ E)). rewrite <- (proj1 (Par _)). exact (P _ _ A2). }
    { apply Fr. intros [r E]. symmetry in E. revert E. apply own_not_placed. apply unity_below. apply Ut. }
    exists g2. cbn [on_android_build get_defaults repo_settings lib_names]. fold to.
    eapply ds_next; [exact C1|]. eapply ds_next; [exact C2|]. apply ds_end.
Qed.
Print Assumptions C57_succeeds_iff_libraries_are_there.

(** However a build ends, the links still open what they opened, and the next build can
    succeed whenever this one could. *)
Theorem C57_stopped_builds_do_no_harm : forall text start f found project ok f',
  clean text start -> work start f -> unitys_own project ->
  (forall s, In s found -> s = repo_settings) ->
  on_android_build found project f ok f' ->
  (forall t link target v, In (t, link, target) native_links -> (opens f' link v <-> opens f link v)) /\
  ((exists g, on_android_build [repo_settings] project f true g) ->
    exists g, on_android_build [repo_settings] project f' true g).
Proof.
  intros text start f found project ok f' C W U S' H.
  pose proof (work_ready _ _ W (clean_ready _ _ C)) as R.
  pose proof (android_ready _ _ _ _ _ U S' H R) as R'.
  destruct (android_frame _ _ _ _ _ U S' H) as [_ F].
  assert (Ops : forall t link target v, In (t, link, target) native_links -> (opens f' link v <-> opens f link v)).
  { intros t link target v L. rewrite (native_opens f' t _ _ v R' L), (native_opens f t _ _ v R L), (unity_placed _ _ t F). reflexivity. }
  split; [exact Ops|]. intros Ex.
  apply (C57_succeeds_iff_libraries_are_there text start f project C W U) in Ex. destruct Ex as [Po O].
  assert (W' : work start f') by (eapply work_android; eauto).
  apply (C57_succeeds_iff_libraries_are_there text start f' project C W' U). split.
  - intros abi t A. rewrite <- (Po abi t A). destruct found as [|s [|s' l]].
    + destruct H as [_ ->]. reflexivity.
    + assert (s = repo_settings) by (apply S'; left; reflexivity). subst s.
      eapply C57_only_the_packaged_libraries_change; [exact H|]. intros a u r _ E.
      apply (f_equal (@length string)) in E. unfold packaged, parent in E.
      replace (project ++ ["src"; "main"; "jniLibs"; abi; "libunity_states.so"]) with ((project ++ ["src"; "main"; "jniLibs"; abi]) ++ ["libunity_states.so"]) in E
        by (rewrite <- app_assoc; reflexivity).
      rewrite removelast_last, !app_length in E. cbn [length] in E. lia.
    + destruct H as [_ ->]. reflexivity.
  - intros abi t A. destruct (O abi t A) as [v V]. exists v. destruct (abi_link abi t A) as [target L].
    apply (Ops _ _ _ v L). exact V.
Qed.
Print Assumptions C57_stopped_builds_do_no_harm.

(** ** A case: from a fresh checkout, with and without -a *)

Definition gradle : path := unity ++ ["Library"; "Bee"; "unityLibrary"].
(** Unity has written a Gradle project. *)
Definition with_gradle (f : fs) : fs :=
  save (packaged gradle "armeabi-v7a") "?" (save (packaged gradle "arm64-v8a") "?" f).
Lemma gradle_own : unitys_own gradle.
Proof. exists "Library", ["Bee"; "unityLibrary"]. split; [reflexivity|left; reflexivity]. Qed.
Lemma gradle_frame : forall abi f p, present f ["demos"] = true -> present f ["demos"; "unity_states"] = true ->
  present f unity = true -> ~ unitys_own p -> save (packaged gradle abi) "?" f p = f p.
Proof.
  intros abi f p A B C N.
  destruct (save_frame (packaged gradle abi) "?" f p) as [E|[E [_ [r [R K]]]]].
  - intros ->. apply N. apply unity_below. exact gradle_own.
  - exact E.
  - unfold packaged, gradle, unity in K. cbn [app] in K.
    destruct p as [|a p]; [|injection K as <- K; destruct p as [|b p]; [|injection K as <- K; destruct p as [|c p]; [|injection K as <- K; destruct p as [|d p]]]].
    + unfold save. rewrite put_other; [|discriminate].
      destruct (make_dirs_spec (parent (packaged gradle abi)) [] f []) as [Q|[Q [_ [k [Q' L]]]]]; [exact Q|].
      cbn [app] in Q'. discriminate Q'.
    + unfold present in A. rewrite E in A. discriminate.
    + unfold present in B. rewrite E in B. discriminate.
    + unfold present, unity in C. rewrite E in C. discriminate.
    + injection K as <- K. destruct N. exists "Library", p. split; [reflexivity|left; reflexivity].
Qed.
Definition can_save_b (p : path) (f : fs) : bool := (free f (parent p) && negb (peqb p []) && no_dir f p)%bool.
Lemma can_save_b_spec : forall p f, can_save_b p f = true -> can_save p f.
Proof.
  intros p f H. unfold can_save_b in H. apply andb_true_iff in H. destruct H as [H D]. apply andb_true_iff in H. destruct H as [H E].
  split; [apply free_spec; exact H|]. split; [|apply no_dir_spec; exact D]. intros ->. cbn in E. discriminate.
Qed.
Definition gradle_fits (f : fs) : bool :=
  (present f ["demos"] && present f ["demos"; "unity_states"] && present f unity &&
   can_save_b (packaged gradle "arm64-v8a") f &&
   can_save_b (packaged gradle "armeabi-v7a") (save (packaged gradle "arm64-v8a") "?" f) &&
   match with_gradle f (parent (packaged gradle "arm64-v8a")), with_gradle f (parent (packaged gradle "armeabi-v7a")) with
   | Some Dir, Some Dir => true | _, _ => false end)%bool.
Lemma gradle_works : forall f, tree f -> gradle_fits f = true -> unity_works f (with_gradle f) /\ has_places gradle (with_gradle f).
Proof.
  intros f T H. unfold gradle_fits in H. rewrite !andb_true_iff in H. destruct H as [[[[[A B] C] D] E] G].
  split; [split|].
  - unfold with_gradle. apply tree_save; [apply tree_save; [exact T|]|]; apply can_save_b_spec; assumption.
  - intros p N. unfold with_gradle. assert (Fr : forall q, ~ unitys_own q -> save (packaged gradle "arm64-v8a") "?" f q = f q)
      by (intros q Q; apply gradle_frame; assumption).
    assert (Nu : forall q, In q [["demos"]; ["demos"; "unity_states"]; unity] -> ~ unitys_own q).
    { intros q Q O. apply unity_shape in O. destruct O as [c [r [-> _]]].
      destruct Q as [Q|[Q|[Q|[]]]]; discriminate Q. }
    rewrite gradle_frame; [apply Fr; exact N| | | |exact N]; unfold present; rewrite Fr; try assumption;
      apply Nu; [left|right; left|right; right; left]; reflexivity.
  - intros abi t [[-> _]|[-> _]].
    + destruct (with_gradle f (parent (packaged gradle "arm64-v8a"))) as [[| |]|]; try discriminate G. reflexivity.
    + destruct (with_gradle f (parent (packaged gradle "arm64-v8a"))) as [[| |]|]; try discriminate G.
      destruct (with_gradle f (parent (packaged gradle "armeabi-v7a"))) as [[| |]|]; try discriminate G. reflexivity.
Qed.

Lemma met : forall args, In args [["-a"]; []] -> exists g f',
  runs ex_tools false MacArm no_env args ex_fs true g /\ unity_works g (with_gradle g) /\
  on_android_build [repo_settings] gradle (with_gradle g) true f'.
Proof.
  intros args I'.
  assert (P : match plays false (script (options no_env args) MacArm) ex_fs with Some g => gradle_fits g | None => false end = true)
    by (destruct I' as [<-|[<-|[]]]; vm_compute; reflexivity).
  destruct (plays false (script (options no_env args) MacArm) ex_fs) as [g|] eqn:E; [|discriminate].
  apply plays_spec in E; [|exact ex_tidy]. exists g.
  assert (M : is_mac MacArm) by (left; reflexivity).
  assert (W : work ex_fs g) by (eapply work_script; [apply work_none|exact ex_toolchain|exact M|exact E]).
  pose proof (work_ready _ _ W (clean_ready _ _ ex_clean)) as R.
  destruct (gradle_works g (rd_tree g R) P) as [U H].
  assert (W' : work ex_fs (with_gradle g)) by (eapply work_unity; [exact W|exact U]).
  pose proof (work_ready _ _ W' (clean_ready _ _ ex_clean)) as R'.
  destruct (proj2 (C57_succeeds_iff_libraries_are_there _ _ _ _ ex_clean W' gradle_own)) as [f' K].
  - split; [exact H|]. intros abi t A.
    destruct (native_ready _ _ _ _ _ _ _ _ _ (clean_ready _ _ ex_clean) ex_toolchain M E t (abi_not_intel _ _ A)) as [N1 N2].
    destruct (abi_link abi t A) as [target L].
    assert (Pl : exists v, g (placed_at t) = Some (File v)).
    { destruct I' as [<-|[<-|[]]].
      - destruct N1 as [v [V _]]; [|exists v; exact V]. destruct A as [[_ ->]|[_ ->]]; right;
          (exists [], "-a", "a", []; split; [reflexivity|]; split; [constructor|]; split; [split; [reflexivity|split; discriminate]|cbn; auto]).
      - rewrite N2.
        + destruct (rd_places _ (clean_ready _ _ ex_clean) t) as [Z'|[u Z']]; rewrite Z'; eexists; reflexivity.
        + assert (NG : ~ given [] "a") by (intros [pre' [x [s [post [Z' _]]]]]; destruct pre'; discriminate).
          destruct A as [[_ ->]|[_ ->]]; (intros [Z'|Z']; [discriminate|exact (NG Z')]). }
    destruct Pl as [v V]. exists v. apply (native_opens _ t _ _ v R' L). rewrite (unity_placed g _ t (proj2 U)). exact V.
  - exists f'. split; [exact E|]. split; [exact U|exact K].
Qed.
Theorem C57_met :
  clean "<Project/>" ex_fs /\ toolchain ex_tools ex_product ex_dll "runtime" /\ unitys_own gradle /\
  (exists g f', runs ex_tools false MacArm no_env ["-a"] ex_fs true g /\ unity_works g (with_gradle g) /\
     on_android_build [repo_settings] gradle (with_gradle g) true f' /\
     f' (packaged gradle "arm64-v8a") = Some (File "debugaarch64-linux-android") /\
     f' (packaged gradle "armeabi-v7a") = Some (File "debugarmv7-linux-androideabi")) /\
  (exists g f', runs ex_tools false MacArm no_env [] ex_fs true g /\ unity_works g (with_gradle g) /\
     on_android_build [repo_settings] gradle (with_gradle g) true f' /\
     f' (packaged gradle "arm64-v8a") = Some (File "") /\
     f' (packaged gradle "armeabi-v7a") = Some (File "")).
Proof.
  assert (M : is_mac MacArm) by (left; reflexivity).
  assert (A1 : abi_triple "arm64-v8a" AndroidArm64) by (left; split; reflexivity).
  assert (A2 : abi_triple "armeabi-v7a" AndroidArm) by (right; split; reflexivity).
  split; [exact ex_clean|]. split; [exact ex_toolchain|]. split; [exact gradle_own|]. split.
  - destruct (met ["-a"] ltac:(left; reflexivity)) as [g [f' [E [U K]]]]. exists g, f'.
    split; [exact E|]. split; [exact U|]. split; [exact K|].
    assert (G : given ["-a"] "a") by (exists [], "-a", "a", []; split; [reflexivity|]; split; [constructor|]; split; [split; [reflexivity|split; discriminate]|cbn; auto]).
    assert (NR : ~ given ["-a"] "r").
    { intros [pre' [x [s [post [Z' [_ [[Y' _] X']]]]]]]. destruct pre' as [|y [|? ?]]; try discriminate.
      injection Z' as <- _. cbn in Y'. injection Y' as <-. cbn in X'. destruct X' as [X'|[]]. discriminate. }
    pose proof (C57_packages_what_was_built _ _ _ _ _ _ _ _ _ _ _ _ _ _ ex_clean (work_none _) ex_toolchain M E U gradle_own K (or_intror G)) as Q.
    destruct (Q _ _ A1) as [v [V1 [_ V2]]]. destruct (Q _ _ A2) as [w [W1 [_ W2]]].
    rewrite V1, W1, (V2 NR), (W2 NR). split; reflexivity.
  - destruct (met [] ltac:(right; left; reflexivity)) as [g [f' [E [U K]]]]. exists g, f'.
    split; [exact E|]. split; [exact U|]. split; [exact K|].
    assert (NG : ~ given [] "a") by (intros [pre' [x [s [post [Z' _]]]]]; destruct pre'; discriminate).
    pose proof (C57_packages_old_or_empty_libraries_refuted _ _ _ _ _ _ _ _ _ _ _ _ _ _ ex_clean (work_none _) ex_toolchain M E U gradle_own K eq_refl NG) as Q.
    assert (No : forall abi t, abi_triple abi t -> forall v, ~ opens ex_fs (plugins ++ ["Constellation"; "Android"; abi; "libunity_states.so"]) v).
    { intros abi t A v O. destruct (abi_link abi t A) as [target L].
      apply (native_opens ex_fs t _ _ v (clean_ready _ _ ex_clean) L) in O. destruct A as [[_ ->]|[_ ->]]; vm_compute in O; discriminate. }
    split; [apply (proj2 (Q _ _ A1)); exact (No _ _ A1)|apply (proj2 (Q _ _ A2)); exact (No _ _ A2)].
Qed.
Print Assumptions C57_met.
