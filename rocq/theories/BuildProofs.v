(** Proofs about the build script (C56). *)
From Verif Require Export BuildSpec.
Import Coq.Strings.String.StringSyntax.
Open Scope string_scope.
Open Scope list_scope.
Open Scope nat_scope.

(** ** Deciding what a command leaves alone *)

Definition peqb (a b : path) : bool := if path_dec a b then true else false.
Lemma peqb_true : forall a b, peqb a b = true <-> a = b.
Proof. intros a b. unfold peqb. destruct (path_dec a b); split; congruence. Qed.
Lemma peqb_false : forall a b, peqb a b = false <-> a <> b.
Proof. intros a b. unfold peqb. destruct (path_dec a b); split; congruence. Qed.

(** [d] is a prefix of [p] *)
Fixpoint pre (d p : path) : bool :=
  match d, p with
  | [], _ => true
  | x :: d', y :: p' => (string_eqb x y && pre d' p')%bool
  | _ :: _, [] => false
  end.
Lemma pre_true : forall d p, pre d p = true <-> exists r, p = d ++ r.
Proof.
  induction d as [|x d IH]; intros p; cbn [pre app].
  - split; [intros _; exists p; reflexivity|reflexivity].
  - destruct p as [|y p]; [split; [discriminate|intros [r R]; discriminate]|].
    rewrite andb_true_iff, IH, Coq.Strings.String.eqb_eq. split.
    + intros [<- [r ->]]. exists r. reflexivity.
    + intros [r R]. injection R as -> ->. split; [reflexivity|]. exists r. reflexivity.
Qed.

Definition touches (z : zone) (p : path) : bool :=
  match z with Only q => peqb p q | Within d => (pre d p && negb (peqb d p))%bool end.
Lemma touches_spec : forall z p, in_zone z p -> touches z p = true.
Proof.
  intros [q|d] p; cbn [in_zone touches]; [apply peqb_true|].
  intros [c [r ->]]. apply andb_true_iff. split; [apply pre_true; eexists; reflexivity|].
  apply negb_true_iff, peqb_false. intros E.
  apply (f_equal (@length _)) in E. rewrite app_length in E. cbn [length] in E. lia.
Qed.
(** A proper extension of [p] is in the zone, [p] not being. *)
Definition leads (z : zone) (p : path) : bool :=
  match z with Only q => pre p q | Within d => (pre p d || pre d p)%bool end.
Lemma pre_both : forall a b r s : path, a ++ r = b ++ s -> pre a b = true \/ pre b a = true.
Proof.
  induction a as [|x a IH]; intros b r s E; [left; reflexivity|].
  destruct b as [|y b]; [right; reflexivity|]. cbn [app] in E. injection E as <- E.
  cbn [pre]. rewrite Coq.Strings.String.eqb_refl. exact (IH _ _ _ E).
Qed.
Lemma leads_spec : forall z p r, in_zone z (p ++ r) -> leads z p = true.
Proof.
  intros [q|d] p r; cbn [in_zone leads].
  - intros <-. apply pre_true. eexists; reflexivity.
  - intros [c [s E]]. apply orb_true_iff. exact (pre_both _ _ _ _ E).
Qed.

(** The tool does not change [p]; it changes [p] at most by making a directory. *)
Definition still (d : path) (t : tool) (p : path) : bool :=
  forallb (fun z => negb (touches z p || leads z p)) (zones d t).
Definition calm (d : path) (t : tool) (p : path) : bool :=
  forallb (fun z => negb (touches z p)) (zones d t).
Lemma calm_spec : forall d t p, calm d t p = true -> ~ area d t p.
Proof.
  intros d t p H [z [In' Z']]. unfold calm in H. rewrite forallb_forall in H.
  specialize (H z In'). rewrite (touches_spec _ _ Z') in H. discriminate.
Qed.
Lemma still_spec : forall d t p r, still d t p = true -> ~ area d t (p ++ r).
Proof.
  intros d t p r H [z [In' Z']]. unfold still in H. rewrite forallb_forall in H.
  specialize (H z In'). rewrite (leads_spec _ _ _ Z'), orb_true_r in H. discriminate.
Qed.
Lemma still_calm : forall d t p, still d t p = true -> ~ area d t p.
Proof. intros d t p H A. apply (still_spec d t p [] H). rewrite app_nil_r. exact A. Qed.

Definition leaves (p : path) (c : command) : bool :=
  match c with
  | Tool d t => still d t p
  | Rsync _ d => negb (peqb p d)
  | MkdirTouch d n => (negb (pre p d) && negb (peqb p (d ++ [n])))%bool
  | Mkdir d => negb (pre p d)
  | Touch q => negb (peqb p q)
  | Mv a b => (negb (peqb p a) && negb (peqb p b))%bool
  end.
(** The same, but it may make it a directory if there is nothing. *)
Definition spares (p : path) (c : command) : bool :=
  match c with
  | Tool d t => calm d t p
  | Rsync _ d => negb (peqb p d)
  | MkdirTouch d n => negb (peqb p (d ++ [n]))
  | Mkdir d => true
  | Touch q => negb (peqb p q)
  | Mv a b => (negb (peqb p a) && negb (peqb p b))%bool
  end.

Lemma put_same : forall p n f, put p n f p = n.
Proof. intros. unfold put. destruct (path_dec p p); congruence. Qed.
Lemma put_other : forall p q n f, q <> p -> put p n f q = f q.
Proof. intros. unfold put. destruct (path_dec q p); congruence. Qed.

Lemma make_dirs_spec : forall todo done f p,
  make_dirs done todo f p = f p \/
  (f p = None /\ make_dirs done todo f p = Some Dir /\ exists k, p = done ++ firstn (S k) todo /\ k < length todo).
Proof.
  induction todo as [|c r IH]; intros done f p; cbn [make_dirs]; [left; reflexivity|].
  set (g := match f (done ++ [c]) with None => put (done ++ [c]) (Some Dir) f | _ => f end).
  assert (G : g p = f p \/ (p = done ++ [c] /\ f p = None /\ g p = Some Dir)).
  { unfold g. destruct (f (done ++ [c])) eqn:E; [left; reflexivity|].
    destruct (path_dec p (done ++ [c])) as [->|N].
    - right. rewrite put_same. auto.
    - left. apply put_other. exact N. }
  destruct (IH (done ++ [c]) g p) as [E|[E [E' [k [K L]]]]].
  - destruct G as [G|[-> [G1 G2]]].
    + left. congruence.
    + right. split; [exact G1|]. split; [congruence|]. exists 0. cbn [firstn length]. split; [reflexivity|lia].
  - destruct G as [G|[G0 [G1 G2]]]; [|congruence].
    right. split; [congruence|]. split; [exact E'|]. exists (S k). rewrite <- app_assoc in K. cbn [app] in K.
    split; [exact K|]. cbn [length]. lia.
Qed.
Lemma pre_firstn : forall k (d : path), pre (firstn k d) d = true.
Proof. intros k d. apply pre_true. exists (skipn k d). symmetry. apply firstn_skipn. Qed.
Lemma pre_trans : forall a b c, pre a b = true -> pre b c = true -> pre a c = true.
Proof.
  intros a b c A B. apply pre_true in A, B. destruct A as [r ->], B as [s ->].
  apply pre_true. exists (r ++ s). symmetry. apply app_assoc.
Qed.
Lemma make_dirs_pre : forall d f p, make_dirs [] d f p = f p \/
  (f p = None /\ make_dirs [] d f p = Some Dir /\ pre p d = true).
Proof.
  intros d f p. destruct (make_dirs_spec d [] f p) as [E|[E [E' [k [-> _]]]]]; [left; exact E|right].
  split; [exact E|]. split; [exact E'|]. apply pre_firstn.
Qed.
Lemma mkdir_pre : forall full d f ok f' p, mkdir full d f ok f' ->
  f' p = f p \/ (f p = None /\ f' p = Some Dir /\ pre p d = true).
Proof.
  intros full d f ok f' p H. destruct H as [_|k _ _].
  - apply make_dirs_pre.
  - destruct (make_dirs_pre (firstn k d) f p) as [E|[E [E' P]]]; [left; exact E|right].
    split; [exact E|]. split; [exact E'|]. eapply pre_trans; [exact P|apply pre_firstn].
Qed.
Lemma touch_other : forall q f ok f' p, touch q f ok f' -> p <> q -> f' p = f p.
Proof. intros q f ok f' p H N. destruct H; try reflexivity. apply put_other. exact N. Qed.
Lemma rsync_other : forall s d f ok f' p, rsync s d f ok f' -> p <> d -> f' p = f p.
Proof. intros s d f ok f' p H N. destruct H; try reflexivity. apply put_other. exact N. Qed.
Lemma mv_other : forall s d f ok f' p, mv s d f ok f' -> p <> s -> p <> d -> f' p = f p.
Proof.
  intros s d f ok f' p H N N'. destruct H; try reflexivity.
  rewrite put_other by exact N'. apply put_other. exact N.
Qed.

Section Toolchain.
Variables (tools : programs) (full : bool) (product : bool -> triple -> string)
  (dll : bool -> string -> string) (runtime : string).
Hypothesis TC : toolchain tools product dll runtime.

Lemma step_leaves : forall p c f ok f', leaves p c = true -> step tools full f c ok f' -> f' p = f p.
Proof.
  intros p c f ok f' L H. destruct H as [d t ok f' H|s d ok f' H|d n g ok f' M H|d n f' H|d ok f' H|q ok f' H|s d ok f' H];
    cbn [leaves] in L; rewrite ?andb_true_iff, ?negb_true_iff, ?peqb_false in L.
  - destruct (tc_area _ _ _ _ TC _ _ _ _ _ p H (still_calm _ _ _ L)) as [E|[_ [_ [r [_ A]]]]]; [exact E|].
    destruct (still_spec _ _ _ r L A).
  - eapply rsync_other; eauto.
  - destruct L as [L1 L2]. rewrite (touch_other _ _ _ _ p H L2).
    destruct (mkdir_pre _ _ _ _ _ p M) as [E|[_ [_ P]]]; [exact E|congruence].
  - destruct L as [L1 L2]. destruct (mkdir_pre _ _ _ _ _ p H) as [E|[_ [_ P]]]; [exact E|congruence].
  - destruct (mkdir_pre _ _ _ _ _ p H) as [E|[_ [_ P]]]; [exact E|congruence].
  - eapply touch_other; eauto.
  - destruct L. eapply mv_other; eauto.
Qed.
Lemma step_spares : forall p c f ok f', spares p c = true -> step tools full f c ok f' ->
  f' p = f p \/ (f p = None /\ f' p = Some Dir).
Proof.
  intros p c f ok f' L H. destruct H as [d t ok f' H|s d ok f' H|d n g ok f' M H|d n f' H|d ok f' H|q ok f' H|s d ok f' H];
    cbn [spares] in L; rewrite ?andb_true_iff, ?negb_true_iff, ?peqb_false in L.
  - destruct (tc_area _ _ _ _ TC _ _ _ _ _ p H (calm_spec _ _ _ L)) as [E|[E [E' _]]]; auto.
  - left. eapply rsync_other; eauto.
  - rewrite (touch_other _ _ _ _ p H L).
    destruct (mkdir_pre _ _ _ _ _ p M) as [E|[E [E' _]]]; auto.
  - destruct (mkdir_pre _ _ _ _ _ p H) as [E|[E [E' P]]]; auto.
  - destruct (mkdir_pre _ _ _ _ _ p H) as [E|[E [E' P]]]; auto.
  - left. eapply touch_other; eauto.
  - left. destruct L. eapply mv_other; eauto.
Qed.

Lemma exec_leaves : forall p cs f ok f', forallb (leaves p) cs = true -> exec tools full cs f ok f' -> f' p = f p.
Proof.
  intros p cs f ok f' L H. induction H as [f|cs f|c cs f f' H|c cs f g ok h H _ IH]; try reflexivity;
    cbn [forallb] in L; apply andb_true_iff in L; destruct L as [L1 L2].
  - exact (step_leaves _ _ _ _ _ L1 H).
  - rewrite (IH L2). exact (step_leaves _ _ _ _ _ L1 H).
Qed.
Lemma exec_spares : forall p cs f ok f', forallb (spares p) cs = true -> exec tools full cs f ok f' ->
  f' p = f p \/ (f p = None /\ f' p = Some Dir).
Proof.
  intros p cs f ok f' L H. induction H as [f|cs f|c cs f f' H|c cs f g ok h H _ IH]; auto;
    cbn [forallb] in L; apply andb_true_iff in L; destruct L as [L1 L2].
  - exact (step_spares _ _ _ _ _ L1 H).
  - destruct (IH L2) as [E|[E E']], (step_spares _ _ _ _ _ L1 H) as [F|[F F']]; try (left; congruence);
      right; split; congruence.
Qed.

(** ** Trees *)

Lemma tree_put : forall f p n, tree f -> p <> [] -> is_dir f (parent p) -> n <> None ->
  (f p <> Some Dir \/ n = Some Dir) -> tree (put p n f).
Proof.
  intros f p n T N D S K q c E. destruct (path_dec (q ++ [c]) p) as [<-|M].
  - unfold parent in D. rewrite removelast_last in D. destruct D as [->|D]; [left; reflexivity|].
    right. destruct (path_dec q (q ++ [c])) as [B|B].
    + apply (f_equal (@length _)) in B. rewrite app_length in B. cbn [length] in B. lia.
    + rewrite put_other by exact B. exact D.
  - rewrite put_other in E by exact M. destruct (T q c E) as [->|D']; [left; reflexivity|].
    right. destruct (path_dec q p) as [->|B]; [rewrite put_same; destruct K; congruence|].
    rewrite put_other by exact B. exact D'.
Qed.
Lemma tree_cut : forall f p, tree f -> f p <> Some Dir -> tree (put p None f).
Proof.
  intros f p T K q c E. destruct (path_dec (q ++ [c]) p) as [<-|M]; [rewrite put_same in E; congruence|].
  rewrite put_other in E by exact M. destruct (T q c E) as [->|D']; [left; reflexivity|]. right.
  destruct (path_dec q p) as [->|B]; [congruence|]. rewrite put_other by exact B. exact D'.
Qed.
Lemma snoc_not_nil : forall (A : Type) (l : list A) x, l ++ [x] <> [].
Proof. intros A l x E. apply app_eq_nil in E. destruct E; discriminate. Qed.
Lemma tree_make_dirs : forall todo done f, tree f -> is_dir f done ->
  (forall k, k < length todo -> f (done ++ firstn (S k) todo) = None \/ f (done ++ firstn (S k) todo) = Some Dir) ->
  tree (make_dirs done todo f) /\ is_dir (make_dirs done todo f) (done ++ todo).
Proof.
  induction todo as [|c r IH]; intros done f T D F; cbn [make_dirs].
  - rewrite app_nil_r. auto.
  - set (g := match f (done ++ [c]) with None => put (done ++ [c]) (Some Dir) f | _ => f end).
    assert (C : f (done ++ [c]) = None \/ f (done ++ [c]) = Some Dir) by (apply (F 0); cbn [length]; lia).
    assert (Tg : tree g).
    { unfold g. destruct C as [C|C]; rewrite C; [|exact T]. apply tree_put; auto.
      - apply snoc_not_nil.
      - unfold parent. rewrite removelast_last. exact D.
      - discriminate. }
    assert (Dg : is_dir g (done ++ [c])).
    { right. unfold g. destruct C as [C|C]; rewrite C; [apply put_same|exact C]. }
    destruct (IH (done ++ [c]) g Tg Dg) as [A B].
    + intros k K. rewrite <- app_assoc. cbn [app].
      assert (G : g (done ++ c :: firstn (S k) r) = f (done ++ c :: firstn (S k) r)).
      { unfold g. destruct C as [C|C]; rewrite C; [|reflexivity]. apply put_other.
        intros E. apply app_inv_head in E. destruct r; [cbn [length] in K; lia|discriminate E]. }
      rewrite G. apply (F (S k)). cbn [length]. lia.
    + rewrite <- app_assoc in B. cbn [app] in B. auto.
Qed.
Lemma not_blocked : forall f d, ~ blocked f d ->
  forall k, k < length d -> f ([] ++ firstn (S k) d) = None \/ f ([] ++ firstn (S k) d) = Some Dir.
Proof.
  intros f d B k K. cbn [app].
  destruct (f (firstn (S k) d)) as [[v| |t]|] eqn:E; auto; destruct B; exists (S k);
    (split; [lia|]); (split; [destruct d; [cbn [length] in K; lia|discriminate]|]); rewrite E; split; discriminate.
Qed.
Lemma mkdir_tree : forall d f ok f', mkdir full d f ok f' -> tree f -> tree f' /\ (ok = true -> is_dir f' d).
Proof.
  intros d f ok f' H T. destruct H as [B|k _ B].
  - destruct (tree_make_dirs d [] f T (or_introl eq_refl) (not_blocked _ _ B)) as [A C]. auto.
  - destruct (tree_make_dirs (firstn k d) [] f T (or_introl eq_refl) (not_blocked _ _ B)) as [A _].
    split; [exact A|discriminate].
Qed.
Lemma touch_tree : forall p f ok f', p <> [] -> touch p f ok f' -> tree f -> tree f'.
Proof.
  intros p f ok f' N H T. destruct H; auto. apply tree_put; auto; [discriminate|]. left. congruence.
Qed.
(** The destinations of the commands of the script. *)
Definition named (c : command) : bool :=
  match c with
  | Rsync _ d => negb (peqb d []) | Touch p => negb (peqb p []) | Mv _ d => negb (peqb d []) | _ => true
  end.
Lemma step_tree : forall c f ok f', named c = true -> step tools full f c ok f' -> tree f -> tree f'.
Proof.
  intros c f ok f' N H T. destruct H as [d t ok f' H|s d ok f' H|d n g ok f' M H|d n f' H|d ok f' H|q ok f' H|s d ok f' H];
    cbn [named] in N; rewrite ?negb_true_iff, ?peqb_false in N.
  - exact (tc_tree _ _ _ _ TC _ _ _ _ _ H T).
  - destruct H; auto. apply tree_put; auto. discriminate.
  - eapply touch_tree; [|exact H|]; [apply snoc_not_nil|]. exact (proj1 (mkdir_tree _ _ _ _ M T)).
  - exact (proj1 (mkdir_tree _ _ _ _ H T)).
  - exact (proj1 (mkdir_tree _ _ _ _ H T)).
  - eapply touch_tree; eauto.
  - destruct H as [n E Nd Nf D|]; auto.
    assert (X : s <> d \/ s = d) by (destruct (path_dec s d); auto).
    assert (T' : tree (put s None f)) by (apply tree_cut; [exact T|congruence]).
    intros q c K. destruct (path_dec (q ++ [c]) d) as [<-|M].
    + unfold parent in D. rewrite removelast_last in D. destruct D as [->|D]; [left; reflexivity|]. right.
      assert (q <> q ++ [c]) by (intros B; apply (f_equal (@length _)) in B; rewrite app_length in B; cbn [length] in B; lia).
      rewrite put_other by assumption. rewrite put_other; [exact D|]. intros ->. congruence.
    + rewrite put_other in K by exact M. destruct (T' q c K) as [->|D']; [left; reflexivity|]. right.
      assert (q <> s) by (intros ->; rewrite put_same in D'; discriminate).
      rewrite put_other in D' by assumption.
      assert (q <> d) by (intros ->; congruence).
      rewrite put_other by assumption. rewrite put_other by assumption. exact D'.
Qed.
Lemma exec_tree : forall cs f ok f', forallb named cs = true -> exec tools full cs f ok f' -> tree f -> tree f'.
Proof.
  intros cs f ok f' L H. induction H as [f|cs f|c cs f f' H|c cs f g ok h H _ IH]; auto;
    cbn [forallb] in L; apply andb_true_iff in L; destruct L as [L1 L2]; intros T.
  - exact (step_tree _ _ _ _ L1 H T).
  - exact (IH L2 (step_tree _ _ _ _ L1 H T)).
Qed.
End Toolchain.

(** ** Executions of pieces *)

Lemma exec_app : forall tools full a b f ok h, exec tools full (a ++ b) f ok h ->
  (ok = false /\ exec tools full a f false h) \/ exists g, exec tools full a f true g /\ exec tools full b g ok h.
Proof.
  intros tools full a b f ok h H. revert f H. induction a as [|c a IH]; intros f H; cbn [app] in H.
  - right. exists f. split; [constructor|exact H].
  - inversion H; subst.
    + left. split; [reflexivity|constructor].
    + left. split; [reflexivity|]. apply exec_fails. assumption.
    + match goal with E : exec _ _ (a ++ b) _ _ _ |- _ => destruct (IH _ E) as [[-> X]|[g' [X Y]]] end.
      * left. split; [reflexivity|]. eapply exec_next; eauto.
      * right. exists g'. split; [eapply exec_next; eauto|exact Y].
Qed.
Lemma exec_join : forall tools full a b f g ok h, exec tools full a f true g -> exec tools full b g ok h ->
  exec tools full (a ++ b) f ok h.
Proof.
  intros tools full a b f g ok h H K. revert f H. induction a as [|c a IH]; intros f H; cbn [app].
  - inversion H; subst. exact K.
  - inversion H; subst. eapply exec_next; eauto.
Qed.
Lemma exec_app_false : forall tools full a b f h, exec tools full a f false h -> exec tools full (a ++ b) f false h.
Proof.
  intros tools full a b f h H. revert f H. induction a as [|c a IH]; intros f H; cbn [app].
  - inversion H; subst. constructor.
  - inversion H; subst; [constructor|apply exec_fails; assumption|eapply exec_next; eauto].
Qed.

(** ** All scripts *)

Definition bools := [true; false].
Definition all_flags : list flags :=
  flat_map (fun a => flat_map (fun i => flat_map (fun l => flat_map (fun r => map (fun w => mkFlags a i l r w) bools)
    bools) bools) bools) bools.
Definition every (b : flags -> triple -> bool) : bool :=
  forallb (fun o => (b o MacArm && b o MacIntel)%bool) all_flags.
Lemma every_spec : forall b, every b = true -> forall o host, is_mac host -> b o host = true.
Proof.
  intros b H o host M. unfold every in H. rewrite forallb_forall in H.
  assert (A : In o all_flags) by (destruct o as [[] [] [] [] []]; vm_compute; intuition).
  specialize (H o A). apply andb_true_iff in H. destruct M as [->| ->]; apply H.
Qed.

(** ** A library and the place it is put *)

Inductive value : Type := Old | Touched | New.
Definition is_new (v : value) : bool := match v with New => true | _ => false end.
Definition triple_eqb (a b : triple) : bool := string_eqb (triple_name a) (triple_name b).
Lemma triple_eqb_true : forall a b, triple_eqb a b = true -> a = b.
Proof. intros [] [] H; try reflexivity; discriminate H. Qed.
Definition builds (r : bool) (t : triple) (c : command) : bool :=
  match c with Tool _ (Build _ r' t') => (Bool.eqb r r' && triple_eqb t t')%bool | _ => false end.
Definition copies (r : bool) (t : triple) (c : command) : bool :=
  match c with Rsync s d => (peqb s (built_at r t) && peqb d (placed_at t))%bool | _ => false end.
Definition holds_place (t : triple) (c : command) : bool :=
  match c with MkdirTouch d n => (peqb d ["target"; triple_name t] && string_eqb n (library t))%bool | _ => false end.

(** Is the built library the fresh one; and what is in its place?  [None]: not followed. *)
Definition follow (r : bool) (t : triple) (c : command) (s : bool * value) : option (bool * value) :=
  let (b, v) := s in
  if builds r t c then if leaves (placed_at t) c then Some (true, v) else None
  else if copies r t c then if b then Some (b, New) else None
  else if holds_place t c then
    if leaves (built_at r t) c then Some (b, match v with Old => Touched | _ => v end) else None
  else if leaves (placed_at t) c then Some ((b && leaves (built_at r t) c)%bool, v) else None.
Fixpoint follows (r : bool) (t : triple) (cs : list command) (s : bool * value) : option (bool * value) :=
  match cs with
  | [] => Some s
  | c :: cs' => match follow r t c s with Some s' => follows r t cs' s' | None => None end
  end.
Lemma follow_new : forall r t c b v b' v', follow r t c (b, v) = Some (b', v') -> v = New -> v' = New.
Proof.
  intros r t c b v b' v' H ->. unfold follow in H.
  destruct (builds r t c); [destruct (leaves (placed_at t) c); congruence|].
  destruct (copies r t c); [destruct b; congruence|].
  destruct (holds_place t c); [destruct (leaves (built_at r t) c); congruence|].
  destruct (leaves (placed_at t) c); congruence.
Qed.
Lemma follows_new : forall r t cs b v b' v', follows r t cs (b, v) = Some (b', v') -> v = New -> v' = New.
Proof.
  induction cs as [|c cs IH]; intros b v b' v' H N; cbn [follows] in H; [congruence|].
  destruct (follow r t c (b, v)) as [[b1 v1]|] eqn:F; [|discriminate].
  eapply IH; [exact H|]. eapply follow_new; eauto.
Qed.

Definition none_or_dir (f : fs) (p : path) : Prop := f p = None \/ f p = Some Dir.
Definition none_or_file (f : fs) (p : path) : Prop := f p = None \/ exists v, f p = Some (File v).
Definition touched (n : option node) : option node := match n with None => Some (File "") | _ => n end.

Section Library.
Variables (tools : programs) (full : bool) (product : bool -> triple -> string)
  (dll : bool -> string -> string) (runtime : string).
Hypothesis TC : toolchain tools product dll runtime.
Variables (r : bool) (t : triple).

Definition means (v : value) (old new : option node) : Prop :=
  match v with
  | Old => new = old
  | Touched => new = touched old \/ (full = true /\ new = old)
  | New => new = Some (File (product r t))
  end.
Definition state (old : option node) (s : bool * value) (f : fs) : Prop :=
  (fst s = true -> f (built_at r t) = Some (File (product r t))) /\ means (snd s) old (f (placed_at t)).

Lemma not_blocked_place : forall f, none_or_dir f ["target"] -> none_or_dir f ["target"; triple_name t] ->
  ~ blocked f ["target"; triple_name t].
Proof.
  intros f A B [k [K [N [E E']]]]. cbn [length] in K.
  destruct k as [|[|[|k]]]; cbn [firstn] in *; [congruence| | |lia].
  - destruct A; congruence.
  - destruct B; congruence.
Qed.

Lemma built_not_placed : built_at r t <> placed_at t.
Proof. unfold built_at, placed_at. intros E. apply (f_equal (@length _)) in E. discriminate E. Qed.

Lemma step_follow : forall c old s s' f ok f',
  follow r t c s = Some s' -> step tools full f c ok f' ->
  none_or_dir f ["target"] -> none_or_dir f ["target"; triple_name t] -> none_or_file f (placed_at t) ->
  state old s f ->
  none_or_file f' (placed_at t) /\ (ok = true -> state old s' f') /\
  (ok = false -> f' (placed_at t) = f (placed_at t)).
Proof.
  intros c old [b v] s' f ok f' F H D1 D2 P [S1 S2]. unfold follow in F. cbn [fst snd] in S1, S2.
  destruct (builds r t c) eqn:B.
  { destruct (leaves (placed_at t) c) eqn:L; [|discriminate]. injection F as <-.
    pose proof (step_leaves _ _ _ _ _ TC _ _ _ _ _ L H) as E.
    split; [unfold none_or_file; rewrite E; exact P|]. split; [|intros _; exact E]. intros ->. split; cbn [fst snd].
    - intros _. destruct c as [d tl| | | | |]; try discriminate B. destruct tl; try discriminate B. cbn [builds] in B.
      apply andb_true_iff in B. destruct B as [B1 B2]. apply Bool.eqb_prop in B1. apply triple_eqb_true in B2. subst.
      inversion H; subst. eapply (tc_build _ _ _ _ TC); eassumption.
    - rewrite E. exact S2. }
  destruct (copies r t c) eqn:C.
  { destruct b; [|discriminate]. injection F as <-.
    destruct c as [|src dst| | | |]; try discriminate C. cbn [copies] in C. apply andb_true_iff in C.
    destruct C as [C1 C2]. apply peqb_true in C1, C2. subst src dst. inversion H; subst.
    match goal with R : rsync _ _ _ _ _ |- _ => destruct R as [w E D N|] end.
    - rewrite (S1 eq_refl) in E. injection E as <-. split; [right; eexists; apply put_same|].
      split; [|discriminate]. intros _. split; cbn [fst snd].
      + intros _. rewrite put_other by exact built_not_placed. exact (S1 eq_refl).
      + apply put_same.
    - split; [exact P|]. split; [discriminate|reflexivity]. }
  destruct (holds_place t c) eqn:Q.
  { destruct (leaves (built_at r t) c) eqn:L; [|discriminate]. injection F as <-.
    pose proof (step_leaves _ _ _ _ _ TC _ _ _ _ _ L H) as E.
    destruct c as [| |d n| | |]; try discriminate Q. cbn [holds_place] in Q. apply andb_true_iff in Q.
    destruct Q as [Q1 Q2]. apply peqb_true in Q1. apply Coq.Strings.String.eqb_eq in Q2. subst d n.
    assert (Mk : forall g ok', mkdir full ["target"; triple_name t] f ok' g -> g (placed_at t) = f (placed_at t)).
    { intros g ok' M. destruct (mkdir_pre _ _ _ _ _ (placed_at t) M) as [K|[_ [_ K]]]; [exact K|].
      apply pre_true in K. destruct K as [x K]. apply (f_equal (@length _)) in K. discriminate K. }
    inversion H; subst.
    - match goal with M : mkdir _ _ _ _ _, T : touch _ _ _ _ |- _ =>
        pose proof (Mk _ _ M) as MM; change (["target"; triple_name t] ++ [library t]) with (placed_at t) in T;
        destruct T as [I1 I2|w I1 I2|] end.
      + rewrite MM in I2. split; [right; eexists; apply put_same|]. split; [|discriminate]. intros _.
        split; cbn [fst snd]; [rewrite E; exact S1|]. rewrite put_same.
        destruct v; cbn [means] in *; [left|left|].
        * rewrite <- S2, I2. reflexivity.
        * destruct S2 as [S2|[_ S2]]; [rewrite I2 in S2; destruct old; discriminate S2|]. rewrite <- S2, I2. reflexivity.
        * congruence.
      + rewrite MM in I2. split; [right; exists w; rewrite MM; exact I2|]. split; [|discriminate]. intros _.
        split; cbn [fst snd]; [rewrite E; exact S1|]. rewrite MM.
        destruct v; cbn [means] in *; [left|exact S2|exact S2].
        rewrite <- S2, I2. reflexivity.
      + rewrite MM. split; [unfold none_or_file; rewrite MM; exact P|]. split; [discriminate|reflexivity].
    - match goal with M : mkdir _ _ _ false _ |- _ => pose proof (Mk _ _ M) as MM; inversion M; subst end.
      match goal with Bl : blocked _ _ \/ full = true |- _ => destruct Bl as [Bl|Bl] end;
        [match goal with Bl : blocked f _ |- _ => destruct (not_blocked_place f D1 D2 Bl) end|].
      split; [unfold none_or_file; rewrite MM; exact P|]. split; [|discriminate]. intros _.
      split; cbn [fst snd]; [rewrite E; exact S1|]. rewrite MM.
      destruct v; cbn [means] in *; [right; auto|exact S2|exact S2]. }
  destruct (leaves (placed_at t) c) eqn:L; [|discriminate]. injection F as <-.
  pose proof (step_leaves _ _ _ _ _ TC _ _ _ _ _ L H) as E.
  split; [unfold none_or_file; rewrite E; exact P|]. split; [|intros _; exact E]. intros ->. split; cbn [fst snd].
  - intros B'. apply andb_true_iff in B'. destruct B' as [B1 B2].
    rewrite (step_leaves _ _ _ _ _ TC _ _ _ _ _ B2 H). exact (S1 B1).
  - rewrite E. exact S2.
Qed.

Lemma none_or_dir_step : forall p c f ok f', spares p c = true -> step tools full f c ok f' ->
  none_or_dir f p -> none_or_dir f' p.
Proof.
  intros p c f ok f' L H D. destruct (step_spares _ _ _ _ _ TC _ _ _ _ _ L H) as [E|[_ E]]; unfold none_or_dir; rewrite E; auto.
Qed.

Lemma exec_follow : forall cs old s s' f ok f',
  follows r t cs s = Some s' -> forallb (spares ["target"]) cs = true ->
  forallb (spares ["target"; triple_name t]) cs = true -> exec tools full cs f ok f' ->
  none_or_dir f ["target"] -> none_or_dir f ["target"; triple_name t] -> none_or_file f (placed_at t) ->
  state old s f ->
  none_or_file f' (placed_at t) /\ (ok = true -> state old s' f') /\
  exists v, means v old (f' (placed_at t)) /\ (v = New -> snd s' = New).
Proof.
  intros cs old s s' f ok f' F K1 K2 H D1 D2 P S. revert s F S D1 D2 P.
  induction H as [f|cs f|c cs f f' H|c cs f g ok h H _ IH]; intros s F S D1 D2 P.
  - cbn [follows] in F. injection F as <-. split; [exact P|]. split; [auto|]. exists (snd s). split; [apply S|auto].
  - split; [exact P|]. split; [discriminate|]. exists (snd s). split; [apply S|].
    intros N. destruct s as [b v], s' as [b' v']. exact (follows_new _ _ _ _ _ _ _ F N).
  - cbn [follows] in F. destruct (follow r t c s) as [s1|] eqn:F1; [|discriminate].
    destruct (step_follow _ _ _ _ _ _ _ F1 H D1 D2 P S) as [A [_ B]].
    split; [exact A|]. split; [discriminate|]. exists (snd s). rewrite (B eq_refl). split; [apply S|].
    intros N. destruct s as [b v], s1 as [b1 v1], s' as [b' v'].
    exact (follows_new _ _ _ _ _ _ _ F (follow_new _ _ _ _ _ _ _ F1 N)).
  - cbn [follows] in F. destruct (follow r t c s) as [s1|] eqn:F1; [|discriminate].
    cbn [forallb] in K1, K2. apply andb_true_iff in K1, K2. destruct K1 as [K1 K1'], K2 as [K2 K2'].
    destruct (step_follow _ _ _ _ _ _ _ F1 H D1 D2 P S) as [A [B _]].
    apply (IH K1' K2' s1 F (B eq_refl)); [| |exact A]; eapply none_or_dir_step; eauto.
Qed.
End Library.

(** ** Something made by one command and left alone afterwards *)

Fixpoint last_made (made : command -> bool) (p : path) (cs : list command) : bool :=
  match cs with
  | [] => false
  | c :: r => (last_made made p r || (made c && forallb (leaves p) r))%bool
  end.
Lemma exec_last_made : forall tools full product dll runtime (TC : toolchain tools product dll runtime) made p n,
  (forall c f f', made c = true -> step tools full f c true f' -> f' p = n) ->
  forall cs f f', last_made made p cs = true -> exec tools full cs f true f' -> f' p = n.
Proof.
  intros tools full product dll runtime TC made p n M cs. induction cs as [|c cs IH]; intros f f' L H; [discriminate|].
  cbn [last_made] in L. inversion H; subst. apply orb_true_iff in L. destruct L as [L|L]; [eapply IH; eauto|].
  apply andb_true_iff in L. destruct L as [L1 L2].
  match goal with X : exec _ _ cs _ _ _ |- _ => rewrite (exec_leaves _ _ _ _ _ TC _ _ _ _ _ L2 X) end.
  eapply M; eauto.
Qed.

(** ** The project file *)

Definition three : list path := [project; project60; project61].
Definition file_at (text : string) (l : path) (f : fs) : Prop :=
  In l three /\ f l = Some (File text) /\ forall q, In q three -> q <> l -> f q = None.
Definition mem (p : path) (l : list path) : bool := existsb (peqb p) l.
Lemma mem_true : forall p l, mem p l = true -> In p l.
Proof. intros p l H. apply existsb_exists in H. destruct H as [x [A B]]. apply peqb_true in B. subst. exact A. Qed.
(** A rename among the three names, or nothing to do with them. *)
Definition about (c : command) : bool :=
  match c with
  | Mv a b => (mem a three && mem b three && negb (peqb a b))%bool
  | _ => forallb (fun p => leaves p c) three
  end.
Fixpoint trail (cs : list command) (l : path) : list path :=
  match cs with
  | [] => [l]
  | Mv a b :: r => l :: (if peqb a l then trail r b else [])
  | _ :: r => trail r l
  end.
Fixpoint arrives (cs : list command) (l : path) : option path :=
  match cs with
  | [] => Some l
  | Mv a b :: r => if peqb a l then arrives r b else None
  | _ :: r => arrives r l
  end.

Section Project.
Variables (tools : programs) (full : bool) (product : bool -> triple -> string)
  (dll : bool -> string -> string) (runtime : string) (text : string).
Hypothesis TC : toolchain tools product dll runtime.

Lemma step_about : forall c f ok f' l, about c = true -> step tools full f c ok f' ->
  (forall a b, c <> Mv a b) -> file_at text l f -> file_at text l f'.
Proof.
  intros c f ok f' l A H N [I [E O]].
  assert (K : forall p, In p three -> f' p = f p).
  { intros p P. eapply (step_leaves _ _ _ _ _ TC); [|exact H].
    destruct c; try (cbn [about] in A; rewrite forallb_forall in A; apply A; exact P). exfalso. eapply N. reflexivity. }
  split; [exact I|]. split; [rewrite K by exact I; exact E|]. intros q Q D. rewrite K by exact Q. auto.
Qed.
Lemma exec_about : forall cs f ok f' l, forallb about cs = true -> exec tools full cs f ok f' ->
  file_at text l f -> exists l', file_at text l' f' /\ In l' (trail cs l) /\ (ok = true -> arrives cs l = Some l').
Proof.
  intros cs f ok f' l A H. revert l A. induction H as [f|cs f|c cs f f' H|c cs f g ok h H _ IH]; intros l A F.
  - exists l. cbn. auto.
  - exists l. split; [exact F|]. split; [|discriminate]. clear. revert l. induction cs as [|c cs IH]; intros l; [left; reflexivity|].
    destruct c; cbn [trail]; auto. left. reflexivity.
  - cbn [forallb] in A. apply andb_true_iff in A. destruct A as [A _].
    assert (K : file_at text l f').
    { destruct c; try (eapply step_about; eauto; discriminate). inversion H; subst.
      match goal with M : mv _ _ _ false _ |- _ => inversion M; subst end. exact F. }
    exists l. split; [exact K|]. split; [|discriminate]. clear. revert c l.
    induction cs as [|c' cs IH]; intros c l; [destruct c; left; reflexivity|].
    destruct c; cbn [trail]; [apply IH..|]; left; reflexivity.
  - cbn [forallb] in A. apply andb_true_iff in A. destruct A as [A A'].
    destruct c as [d t|s d|d n|d|p|a b];
      try (destruct (IH l A') as [l' [X [Y Z']]]; [eapply step_about; eauto; discriminate|exists l'; auto]).
    inversion H; subst. match goal with M : mv _ _ _ true _ |- _ => inversion M; subst end.
    cbn [about] in A. rewrite !andb_true_iff, negb_true_iff, peqb_false in A. destruct A as [[A1 A2] A3].
    apply mem_true in A1, A2. destruct F as [I' [E O]].
    assert (a = l) by (destruct (path_dec a l) as [|N']; [assumption|]; rewrite (O _ A1 N') in *; discriminate).
    subst a. assert (n = File text) by congruence. subst n.
    destruct (IH b A') as [l' [X [Y Z']]].
    + split; [exact A2|]. split; [apply put_same|]. intros q Q D. rewrite put_other by exact D.
      destruct (path_dec q l) as [->|D']; [apply put_same|]. rewrite put_other by exact D'. auto.
    + exists l'. cbn [trail arrives]. rewrite (proj2 (peqb_true l l) eq_refl).
      split; [exact X|]. split; [right; exact Y|exact Z'].
Qed.
End Project.
