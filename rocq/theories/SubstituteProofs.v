From Verif Require Import Substitute SubstituteSpec BaseProofs.
Import Coq.Strings.String.StringSyntax.
Open Scope string_scope.
Open Scope list_scope.
Open Scope nat_scope.

(** ** Texts *)
Lemma str_eqb_spec a : forall b, str_eqb a b = true <-> a = b.
Proof.
  induction a as [|x a IH]; intros [|y b]; cbn; try (split; congruence).
  rewrite Bool.andb_true_iff, N.eqb_eq, IH. split; [intros [-> ->]; reflexivity|intros E; injection E; auto].
Qed.
Lemma starts_spec p : forall s, starts p s = true <-> exists b, s = p ++ b.
Proof.
  induction p as [|x p IH]; intros s; cbn.
  - split; [eauto|auto].
  - destruct s as [|y s]; [split; [discriminate|intros [b E]; discriminate]|].
    rewrite Bool.andb_true_iff, N.eqb_eq, IH. split.
    + intros [-> [b ->]]. eauto.
    + intros [b E]. injection E as -> ->. eauto.
Qed.

Lemma split_skip p : forall k cur s, split_on p k cur s = split_on p 0 cur (skipn k s).
Proof.
  induction k as [|k IH]; intros cur s; [reflexivity|].
  destruct s as [|c s]; [reflexivity|]. cbn [split_on skipn]. apply IH.
Qed.
Lemma split_found p cur b : p <> [] -> split_on p 0 cur (p ++ b) = rev cur :: split_on p 0 [] b.
Proof.
  intros Hp. destruct p as [|x p]; [congruence|].
  change ((x :: p) ++ b) with (x :: (p ++ b)). cbn [split_on].
  assert (E : starts (x :: p) (x :: p ++ b) = true) by (apply starts_spec; exists b; reflexivity).
  rewrite E. f_equal. rewrite split_skip. f_equal.
  cbn [length Nat.pred]. rewrite skipn_app, skipn_all, Nat.sub_diag. reflexivity.
Qed.
Lemma split_nonempty p k cur s : split_on p k cur s <> [].
Proof.
  revert k cur. induction s as [|c s IH]; intros k cur; cbn; [discriminate|].
  destruct k; [destruct (starts p (c :: s)); [discriminate|]|]; apply IH.
Qed.
Lemma join_cons sep x l : l <> [] -> join_with sep (x :: l) = x ++ sep ++ join_with sep l.
Proof. destruct l; [congruence|reflexivity]. Qed.

(** The first occurrence. *)
Lemma split_first p : p <> [] -> forall s cur,
  (~ occurs p s /\ split_on p 0 cur s = [rev cur ++ s]) \/
  (exists a b, s = a ++ p ++ b /\ (forall a1 b1, s = a1 ++ p ++ b1 -> length a <= length a1) /\
     split_on p 0 cur s = (rev cur ++ a) :: split_on p 0 [] b).
Proof.
  intros Hp. induction s as [|c s IH]; intros cur.
  - left. split; [|cbn; rewrite app_nil_r; reflexivity].
    intros [a [b E]]. destruct a; [|discriminate]. destruct p; [congruence|discriminate].
  - destruct (starts p (c :: s)) eqn:E.
    + right. apply starts_spec in E. destruct E as [b E]. exists [], b. split; [exact E|]. split; [cbn; lia|].
      rewrite E, split_found, app_nil_r by auto. reflexivity.
    + assert (N : forall b, c :: s <> p ++ b).
      { intros b Eb. assert (starts p (c :: s) = true) by (apply starts_spec; eauto). congruence. }
      assert (Es : split_on p 0 cur (c :: s) = split_on p 0 (c :: cur) s) by (cbn [split_on]; rewrite E; reflexivity).
      destruct (IH (c :: cur)) as [[H1 H2]|[a [b [H1 [H2 H3]]]]].
      * left. split.
        { intros [a [b Eb]]. destruct a as [|a0 a]; [apply (N b); exact Eb|].
          injection Eb as -> Eb. apply H1. exists a, b. exact Eb. }
        { rewrite Es, H2. cbn [rev]. rewrite <- app_assoc. reflexivity. }
      * right. exists (c :: a), b. split; [cbn; f_equal; exact H1|]. split.
        { intros a1 b1 E1. destruct a1 as [|x a1]; [exfalso; apply (N b1); exact E1|].
          injection E1 as _ E1. cbn. apply le_n_S. apply (H2 a1 b1 E1). }
        { rewrite Es, H3. cbn [rev]. rewrite <- app_assoc. reflexivity. }
Qed.

Lemma split_none p s : p <> [] -> ~ occurs p s -> split_on p 0 [] s = [s].
Proof.
  intros Hp H. destruct (split_first p Hp s []) as [[_ E]|[a [b [E _]]]]; [exact E|].
  exfalso. apply H. exists a, b. exact E.
Qed.
Lemma split_many p s : p <> [] -> occurs p s -> 1 < length (split_on p 0 [] s).
Proof.
  intros Hp H. destruct (split_first p Hp s []) as [[N _]|[a [b [_ [_ E]]]]]; [contradiction|].
  rewrite E. cbn [length]. pose proof (split_nonempty p 0 [] b). destruct (split_on p 0 [] b); [congruence|cbn; lia].
Qed.
Lemma occurs_dec p s : p <> [] -> {occurs p s} + {~ occurs p s}.
Proof.
  intros Hp. destruct (1 <? length (split_on p 0 [] s)) eqn:E.
  - left. apply Nat.ltb_lt in E. destruct (split_first p Hp s []) as [[_ E1]|[a [b [E1 _]]]].
    + rewrite E1 in E. cbn in E. lia.
    + exists a, b. exact E1.
  - right. intros H. apply (split_many p s Hp) in H. apply Nat.ltb_ge in E. lia.
Qed.

Lemma split_join_spec p v s : p <> [] -> text_replaced p v s (join_with v (split_on p 0 [] s)).
Proof.
  intros Hp. remember (length s) as n eqn:Hn. revert s Hn.
  induction n as [n IH] using lt_wf_ind. intros s ->.
  destruct (split_first p Hp s []) as [[N E]|[a [b [E [F E2]]]]].
  - rewrite E. cbn. constructor. exact N.
  - rewrite E2, join_cons by apply split_nonempty. cbn [rev app]. rewrite E. apply tr_first.
    + intros a1 b1 E1. apply (F a1 b1). rewrite E. exact E1.
    + apply (IH (length b)); [|reflexivity]. rewrite E, !app_length. destruct p; [congruence|cbn; lia].
Qed.

Lemma app_len_inj {A} (a a' b b' : list A) : length a = length a' -> a ++ b = a' ++ b' -> a = a' /\ b = b'.
Proof.
  revert a'. induction a as [|x a IH]; intros [|y a'] L E; cbn in *; try discriminate; auto.
  injection E as -> E. destruct (IH a' ltac:(lia) E) as [-> ->]. auto.
Qed.
Lemma text_replaced_fun p v s s1 : text_replaced p v s s1 -> forall s2, text_replaced p v s s2 -> s1 = s2.
Proof.
  intros H. induction H as [s N|a b b' F H IH]; intros s2 H2.
  - inversion H2 as [s0 N2|a b b' F2 H3]; subst; auto. exfalso. apply N. exists a, b. reflexivity.
  - remember (a ++ p ++ b) as s eqn:Es. destruct H2 as [s N2|a2 b2 b2' F2 H2].
    + exfalso. apply N2. exists a, b. exact Es.
    + assert (L1 := F a2 b2 eq_refl). assert (L2 := F2 a b Es).
      destruct (app_len_inj a2 a _ _ ltac:(lia) Es) as [-> E].
      apply app_inv_head in E. subst b2. f_equal. f_equal. apply IH. exact H2.
Qed.

(** ** Attributes *)
Section V.
Variable retok : str -> option str.
Variable vt : str.
Variable v : node.
Notation va := (visit_attribute retok vt).
Notation vis := (visit retok vt v).

Lemma try_occ p s : p <> [] -> occurs p s ->
  exists s', text_replaced p vt s s' /\
    try_pattern retok vt s p = Some (match retok s' with Some t => Done t | None => Crash end).
Proof.
  intros Hp H. exists (join_with vt (split_on p 0 [] s)). split; [apply split_join_spec; exact Hp|].
  unfold try_pattern. assert (L := split_many p s Hp H). apply Nat.ltb_lt in L. rewrite L. reflexivity.
Qed.
Lemma try_no p s : p <> [] -> ~ occurs p s -> try_pattern retok vt s p = None.
Proof. intros Hp H. unfold try_pattern. rewrite (split_none p s Hp H). reflexivity. Qed.

Lemma p1_ne : pattern1 <> []. Proof. discriminate. Qed.
Lemma p2_ne : pattern2 <> []. Proof. discriminate. Qed.

Lemma new_text_fun s s1 s2 : new_text vt s s1 -> new_text vt s s2 -> s1 = s2.
Proof.
  intros [[O1 R1]|[N1 [O1 R1]]] [[O2 R2]|[N2 [O2 R2]]]; try contradiction; eapply text_replaced_fun; eauto.
Qed.
Lemma new_text_not_silent s s' : new_text vt s s' -> ~ silent s.
Proof. intros [[O R]|[_ [O R]]] [S1 S2]; contradiction. Qed.

(** The three outcomes for an attribute. *)
Lemma va_cases a :
  (exists a', va a = Done a' /\ attr_replaced retok vt a a') \/
  (va a = Crash /\ attr_fails retok vt a).
Proof.
  unfold visit_attribute.
  destruct (occurs_dec pattern1 (at_text a) p1_ne) as [O1|N1].
  - destruct (try_occ _ _ p1_ne O1) as [s' [R ->]]. destruct (retok s') as [t|] eqn:E.
    + left. eexists. split; [reflexivity|]. split; [reflexivity|]. right. exists s'. split; [left; split; auto|exact E].
    + right. split; [reflexivity|]. exists s'. split; [left; split; auto|exact E].
  - rewrite (try_no _ _ p1_ne N1). destruct (occurs_dec pattern2 (at_text a) p2_ne) as [O2|N2].
    + destruct (try_occ _ _ p2_ne O2) as [s' [R ->]]. destruct (retok s') as [t|] eqn:E.
      * left. eexists. split; [reflexivity|]. split; [reflexivity|]. right. exists s'. split; [right; auto|exact E].
      * right. split; [reflexivity|]. exists s'. split; [right; auto|exact E].
    + rewrite (try_no _ _ p2_ne N2). left. eexists. split; [reflexivity|]. split; [reflexivity|]. left. split; [split|]; auto.
Qed.
Lemma attr_replaced_fun a a1 a2 : attr_replaced retok vt a a1 -> attr_replaced retok vt a a2 -> a1 = a2.
Proof.
  destruct a1 as [p1 t1], a2 as [p2 t2]. intros [P1 R1] [P2 R2]. cbn in *. subst. f_equal.
  destruct R1 as [[S1 ->]|[s1 [N1 E1]]]; destruct R2 as [[S2 ->]|[s2 [N2 E2]]]; auto.
  - exfalso. eapply new_text_not_silent; eauto.
  - exfalso. eapply new_text_not_silent; eauto.
  - rewrite (new_text_fun _ _ _ N1 N2) in E1. congruence.
Qed.
Lemma attr_replaced_not_fails a a' : attr_replaced retok vt a a' -> attr_fails retok vt a -> False.
Proof.
  intros [_ [[S _]|[s [N E]]]] [s2 [N2 E2]].
  - eapply new_text_not_silent; eauto.
  - rewrite (new_text_fun _ _ _ N N2) in E. congruence.
Qed.
Lemma va_done a a' : va a = Done a' <-> attr_replaced retok vt a a'.
Proof.
  destruct (va_cases a) as [[x [E R]]|[E F]]; rewrite E; split; intros H.
  - injection H as <-. exact R.
  - f_equal. eapply attr_replaced_fun; eauto.
  - discriminate.
  - exfalso. eapply attr_replaced_not_fails; eauto.
Qed.
Lemma va_crash a : va a = Crash <-> attr_fails retok vt a.
Proof.
  destruct (va_cases a) as [[x [E R]]|[E F]]; rewrite E; split; intros H; auto; try discriminate.
  exfalso. eapply attr_replaced_not_fails; eauto.
Qed.
Lemma va_not_deep a : va a <> Deep.
Proof. destruct (va_cases a) as [[x [E R]]|[E F]]; rewrite E; discriminate. Qed.

(** ** Lists *)
Lemma traverse_done {A B} (f : A -> run_result B) l : forall l',
  traverse f l = Done l' <-> Forall2 (fun x y => f x = Done y) l l'.
Proof.
  induction l as [|x l IH]; intros l'; cbn.
  - split; [intros E; injection E as <-; constructor|intros H; inversion H; reflexivity].
  - split.
    + destruct (f x) eqn:E; try discriminate. destruct (traverse f l) eqn:E2; try discriminate.
      intros H. injection H as <-. constructor; auto. apply IH. reflexivity.
    + intros H. inversion H as [|a b c d H1 H2]; subst. rewrite H1. apply IH in H2. rewrite H2. reflexivity.
Qed.
Lemma traverse_crash {A B} (f : A -> run_result B) l :
  traverse f l = Crash -> exists x, In x l /\ f x = Crash.
Proof.
  induction l as [|x l IH]; cbn; [discriminate|].
  destruct (f x) eqn:E; try discriminate.
  - destruct (traverse f l) eqn:E2; try discriminate. intros _. destruct IH as [y [Hy Ey]]; auto. eauto.
  - intros _. eauto.
Qed.
Lemma traverse_deep {A B} (f : A -> run_result B) l :
  traverse f l = Deep -> exists x, In x l /\ f x = Deep.
Proof.
  induction l as [|x l IH]; cbn; [discriminate|].
  destruct (f x) eqn:E; try discriminate.
  - destruct (traverse f l) eqn:E2; try discriminate. intros _. destruct IH as [y [Hy Ey]]; auto. eauto.
  - intros _. eauto.
Qed.
Lemma traverse_mono {A B} (f g : A -> run_result B) l :
  (forall x, f x <> Deep -> g x = f x) -> traverse f l <> Deep -> traverse g l = traverse f l.
Proof.
  intros H. induction l as [|x l IH]; cbn; [reflexivity|].
  destruct (f x) eqn:E; intros D; try congruence.
  - rewrite (H x), E by congruence. destruct (traverse f l) eqn:E2; try congruence; rewrite IH; congruence.
  - rewrite (H x), E by congruence. reflexivity.
Qed.
Lemma traverse_va_not_deep l : traverse va l <> Deep.
Proof. intros E. apply traverse_deep in E. destruct E as [x [_ E]]. exact (va_not_deep x E). Qed.

(** ** Depth *)
Lemma walk_mono f g t : (forall x, f x <> Deep -> g x = f x) ->
  walk retok vt f t <> Deep -> walk retok vt g t = walk retok vt f t.
Proof.
  intros H. destruct t as [a p args|l a k]; cbn; [reflexivity|].
  destruct (traverse va a); try congruence. intros D.
  rewrite (traverse_mono f g k H); [reflexivity|]. intros E. rewrite E in D. congruence.
Qed.
Lemma visit_S d : forall t, vis d t <> Deep -> vis (S d) t = vis d t.
Proof.
  induction d as [|d IH]; intros t D; [cbn in D; congruence|].
  destruct t as [a p args|l a k].
  - change (vis (S (S d)) (Mac a p args)) with
      (if str_eqb (last p []) macro_name then match a with _ :: _ => Done (Mac a p args) | [] => walk retok vt (vis (S d)) v end
       else walk retok vt (vis (S d)) (Mac a p args)).
    change (vis (S d) (Mac a p args)) with
      (if str_eqb (last p []) macro_name then match a with _ :: _ => Done (Mac a p args) | [] => walk retok vt (vis d) v end
       else walk retok vt (vis d) (Mac a p args)) in *.
    destruct (str_eqb (last p []) macro_name).
    + destruct a; [|reflexivity]. apply walk_mono; auto.
    + apply walk_mono; auto.
  - change (walk retok vt (vis (S d)) (Nd l a k) = walk retok vt (vis d) (Nd l a k)).
    change (walk retok vt (vis d) (Nd l a k) <> Deep) in D. apply walk_mono; auto.
Qed.
Lemma visit_more d e t : d <= e -> vis d t <> Deep -> vis e t = vis d t.
Proof.
  intros L D. induction L as [|e L IH]; [reflexivity|]. rewrite visit_S; [exact IH|]. rewrite IH. exact D.
Qed.

(** ** Trees *)
Lemma node_ind2 (P : node -> Prop) :
  (forall a p g, P (Mac a p g)) -> (forall l a k, Forall P k -> P (Nd l a k)) -> forall t, P t.
Proof.
  intros HM HN. fix F 1. intros [a p g|l a k]; [apply HM|]. apply HN.
  induction k as [|x k IH]; constructor; [apply F|exact IH].
Qed.

Lemma named_spec a p g : str_eqb (last p []) macro_name = true <-> named (Mac a p g).
Proof.
  rewrite str_eqb_spec. split.
  - intros E. destruct p as [|x p] using rev_ind; [discriminate|]. rewrite last_last in E. subst x.
    exists a, p, g. reflexivity.
  - intros [a' [p' [g' E]]]. injection E as _ -> _. rewrite last_last. reflexivity.
Qed.
Lemma named_false a p g : str_eqb (last p []) macro_name = false -> ~ named (Mac a p g).
Proof. intros E H. apply named_spec in H. congruence. Qed.
Lemma nd_not_named l a k : ~ named (Nd l a k).
Proof. intros [? [? [? E]]]. discriminate. Qed.
Lemma mac_inside s a p g : inside s (Mac a p g) -> s = Mac a p g.
Proof. intros H. inversion H as [|t k Hk]; subst; auto. contradiction. Qed.
Lemma nd_inside s l a k : inside s (Nd l a k) -> s = Nd l a k \/ exists x, In x k /\ inside s x.
Proof. intros H. inversion H as [|t x Hk]; subst; [auto|]. right. exists x. auto. Qed.
Lemma inside_trans a b c : inside a b -> inside b c -> inside a c.
Proof. intros H1 H2. induction H2 as [|t k Hk H2 IH]; auto. apply (in_kid _ t k); auto. Qed.

Lemma visit_eq d t : vis (S d) t =
  match t with
  | Mac a p _ => if str_eqb (last p []) macro_name then match a with _ :: _ => Done t | [] => walk retok vt (vis d) v end
                 else walk retok vt (vis d) t
  | Nd _ _ _ => walk retok vt (vis d) t
  end.
Proof. reflexivity. Qed.

Inductive vcase (d : nat) (t : node) : Prop :=
| vc_ph : placeholder t -> vis (S d) t = walk retok vt (vis d) v -> vcase d t
| vc_gu : guarded t -> vis (S d) t = Done t -> vcase d t
| vc_walk : ~ named t -> vis (S d) t = walk retok vt (vis d) t -> vcase d t.
Lemma visit_case d t : vcase d t.
Proof.
  destruct t as [a p g|l a k].
  - destruct (str_eqb (last p []) macro_name) eqn:E.
    + destruct a as [|x a].
      * apply vc_ph; [split; [apply named_spec; exact E|reflexivity]|]. rewrite visit_eq, E. reflexivity.
      * apply vc_gu; [split; [apply named_spec; exact E|discriminate]|]. rewrite visit_eq, E. reflexivity.
    + apply vc_walk; [apply named_false; exact E|]. rewrite visit_eq, E. reflexivity.
  - apply vc_walk; [apply nd_not_named|]. reflexivity.
Qed.

(** Children, all within one depth. *)
Lemma kids_depth k k' : Forall2 (fun x y => exists d, vis d x = Done y) k k' ->
  exists d, forall e, d <= e -> traverse (vis e) k = Done k'.
Proof.
  intros H. induction H as [|x y k k' [d1 E1] H [d2 E2]]; [exists 0; reflexivity|].
  exists (Nat.max d1 d2). intros e L. cbn [traverse].
  rewrite (visit_more d1 e), E1 by (try congruence; lia). rewrite E2 by lia. reflexivity.
Qed.
Lemma kids_end k : Forall (fun x => exists d, vis d x <> Deep) k ->
  exists d, forall e, d <= e -> traverse (vis e) k <> Deep.
Proof.
  intros H. induction H as [|x k [d1 E1] H [d2 E2]]; [exists 0; intros e _; discriminate|].
  exists (Nat.max d1 d2). intros e L. cbn [traverse].
  rewrite (visit_more d1 e) by (try congruence; lia). specialize (E2 e ltac:(lia)).
  destruct (vis d1 x); try congruence. destruct (traverse (vis e) k); congruence.
Qed.

Lemma silent_va l : (forall a, In a l -> silent (at_text a)) -> traverse va l = Done l.
Proof.
  intros H. apply traverse_done. induction l as [|a l IH]; constructor.
  - apply va_done. split; [reflexivity|]. left. split; [apply H; left|]; reflexivity.
  - apply IH. intros b Hb. apply H. right. exact Hb.
Qed.

Lemma Forall2_same {A} (R : A -> A -> Prop) l : Forall (fun x => R x x) l -> Forall2 R l l.
Proof. induction 1; constructor; auto. Qed.

Lemma quiet_kid t k : quiet t -> In k (kids_of t) -> quiet k.
Proof. intros Q Hk s Hs. apply Q. apply (in_kid _ t k); auto. Qed.

(** [walk] leaves a quiet tree alone, and so does [visit]. *)
Lemma quiet_fixed t : quiet t -> exists d, forall e, d <= e -> vis e t = Done t /\ walk retok vt (vis e) t = Done t.
Proof.
  induction t as [a p g|l a k IH] using node_ind2; intros Q.
  - assert (W : forall e, walk retok vt (vis e) (Mac a p g) = Done (Mac a p g)).
    { intros e. cbn. rewrite silent_va; [reflexivity|]. apply (proj2 (Q _ (in_here _))). }
    exists 1. intros e L. split; [|apply W]. destruct e as [|e]; [lia|].
    destruct (visit_case e (Mac a p g)) as [P _|G E|N E].
    + exfalso. exact (proj1 (Q _ (in_here _)) P).
    + exact E.
    + rewrite E. apply W.
  - assert (K : exists d, forall e, d <= e -> traverse (vis e) k = Done k).
    { apply kids_depth. apply Forall2_same. apply Forall_forall. intros x Hx. rewrite Forall_forall in IH.
      destruct (IH x Hx) as [d Hd]; [apply (quiet_kid (Nd l a k)); auto|]. exists d. apply Hd. lia. }
    destruct K as [d Hd].
    assert (W : forall e, d <= e -> walk retok vt (vis e) (Nd l a k) = Done (Nd l a k)).
    { intros e L. cbn. rewrite silent_va; [|apply (proj2 (Q _ (in_here _)))]. rewrite Hd by exact L. reflexivity. }
    exists (S d). intros e L. split; [|apply W; lia]. destruct e as [|e]; [lia|].
    change (walk retok vt (vis e) (Nd l a k) = Done (Nd l a k)). apply W. lia.
Qed.

Lemma quiet_walk_v d t : quiet v -> walk retok vt (vis d) v = Done t -> t = v.
Proof.
  intros Q E. destruct (quiet_fixed v Q) as [d0 H]. destruct (H (Nat.max d d0) ltac:(lia)) as [_ W].
  rewrite (walk_mono (vis d) (vis (Nat.max d d0))) in W.
  - congruence.
  - intros x D. apply visit_more; [lia|exact D].
  - congruence.
Qed.

Lemma F2_mono {A B} (R R' : A -> B -> Prop) l l' : (forall x y, In x l -> R x y -> R' x y) ->
  Forall2 R l l' -> Forall2 R' l l'.
Proof.
  intros H F. induction F as [|x y l l' H1 F IH]; constructor.
  - apply H; [left; reflexivity|exact H1].
  - apply IH. intros a b Ha. apply H. right. exact Ha.
Qed.

Lemma visit_sound : quiet v -> forall d t t', vis d t = Done t' -> replaced retok vt v t t'.
Proof.
  intros Q. induction d as [|d IH]; intros t t' E; [discriminate|].
  destruct (visit_case d t) as [P W|G W|N W].
  - rewrite W in E. rewrite (quiet_walk_v _ _ Q E). apply r_placeholder. exact P.
  - rewrite W in E. injection E as <-. apply r_guarded. exact G.
  - rewrite W in E. destruct t as [a p g|l a k]; cbn in E.
    + destruct (traverse va a) eqn:Ea; try discriminate. injection E as <-. apply r_macro; [exact N|].
      apply traverse_done in Ea. eapply F2_mono; [|exact Ea]. intros x y _ H. apply va_done. exact H.
    + destruct (traverse va a) eqn:Ea; try discriminate. destruct (traverse (vis d) k) eqn:Ek; try discriminate.
      injection E as <-. apply traverse_done in Ea, Ek. apply r_node.
      * eapply F2_mono; [|exact Ea]. intros x y _ H. apply va_done. exact H.
      * eapply F2_mono; [|exact Ek]. intros x y _ H. apply IH. exact H.
Qed.

Lemma named_mac_eqb a p g : named (Mac a p g) -> str_eqb (last p []) macro_name = true.
Proof. apply named_spec. Qed.

Lemma visit_complete : quiet v -> forall t t', replaced retok vt v t t' -> exists d, vis d t = Done t'.
Proof.
  intros Q t. induction t as [a p g|l a k IH] using node_ind2; intros t' R.
  - destruct (visit_case 0 (Mac a p g)) as [P W|G W|N W].
    + destruct (quiet_fixed v Q) as [d H]. exists (S d).
      destruct (visit_case d (Mac a p g)) as [_ W2|G _|N _];
        [|exfalso; exact (proj2 G (proj2 P))|exfalso; exact (N (proj1 P))].
      rewrite W2. replace t' with v; [apply (H d); lia|].
      inversion R as [t P0|t G|? ? ? ? N|]; subst; [reflexivity|exfalso; exact (proj2 G (proj2 P))|exfalso; exact (N (proj1 P))].
    + exists 1. rewrite W. f_equal.
      inversion R as [t P|t G0|? ? ? ? N|]; subst; [exfalso; exact (proj2 G (proj2 P))|reflexivity|exfalso; exact (N (proj1 G))].
    + exists 1. rewrite W. cbn.
      inversion R as [t P|t G|? a' ? ? N0 F|]; subst; [exfalso; exact (N (proj1 P))|exfalso; exact (N (proj1 G))|].
      assert (E : traverse va a = Done a').
      { apply traverse_done. eapply F2_mono; [|exact F]. intros x y _ H. apply va_done. exact H. }
      rewrite E. reflexivity.
  - assert (N := nd_not_named l a k).
    inversion R as [t P|t G| |? ? a' ? k' Fa Fk]; subst; [exfalso; exact (N (proj1 P))|exfalso; exact (N (proj1 G))|].
    assert (E : traverse va a = Done a').
    { apply traverse_done. eapply F2_mono; [|exact Fa]. intros x y _ H. apply va_done. exact H. }
    destruct (kids_depth k k') as [d Hd].
    { eapply F2_mono; [|exact Fk]. intros x y Hx H. rewrite Forall_forall in IH. apply (IH x Hx). exact H. }
    exists (S d). change (walk retok vt (vis d) (Nd l a k) = Done (Nd l a' k')). cbn. rewrite E, (Hd d) by lia. reflexivity.
Qed.

(** ** Ending *)
Lemma no_ph_ends t : ~ has_placeholder t -> exists d, vis d t <> Deep.
Proof.
  induction t as [a p g|l a k IH] using node_ind2; intros N.
  - exists 1. destruct (visit_case 0 (Mac a p g)) as [P W|G W|N1 W]; rewrite W.
    + exfalso. apply N. exists (Mac a p g). split; [constructor|exact P].
    + discriminate.
    + cbn. pose proof (traverse_va_not_deep a). destruct (traverse va a); congruence.
  - destruct (kids_end k) as [d Hd].
    { apply Forall_forall. intros x Hx. rewrite Forall_forall in IH. apply (IH x Hx). intros [s [Hs P]].
      apply N. exists s. split; [apply (in_kid _ (Nd l a k) x); auto|exact P]. }
    exists (S d). change (walk retok vt (vis d) (Nd l a k) <> Deep). cbn.
    pose proof (traverse_va_not_deep a). destruct (traverse va a); try congruence.
    specialize (Hd d ltac:(lia)). destruct (traverse (vis d) k); congruence.
Qed.
Lemma walk_ends t : (forall k, In k (kids_of t) -> exists d, vis d k <> Deep) ->
  exists d, forall e, d <= e -> walk retok vt (vis e) t <> Deep.
Proof.
  destruct t as [a p g|l a k]; cbn [kids_of]; intros H.
  - exists 0. intros e _. cbn. pose proof (traverse_va_not_deep a). destruct (traverse va a); congruence.
  - destruct (kids_end k) as [d Hd]; [apply Forall_forall; exact H|]. exists d. intros e L. cbn.
    pose proof (traverse_va_not_deep a). destruct (traverse va a); try congruence.
    specialize (Hd e L). destruct (traverse (vis e) k); congruence.
Qed.
Lemma not_nested_ends t : ~ nested v -> exists d, vis d t <> Deep.
Proof.
  intros N. destruct (walk_ends v) as [dv Hv].
  { intros k Hk. apply no_ph_ends. intros H. apply N. exists k. auto. }
  induction t as [a p g|l a k IH] using node_ind2.
  - exists (S dv). destruct (visit_case dv (Mac a p g)) as [P W|G W|N1 W]; rewrite W.
    + apply Hv. lia.
    + discriminate.
    + cbn. pose proof (traverse_va_not_deep a). destruct (traverse va a); congruence.
  - destruct (walk_ends (Nd l a k)) as [d Hd]; [rewrite Forall_forall in IH; exact IH|].
    exists (S d). change (walk retok vt (vis d) (Nd l a k) <> Deep). apply Hd. lia.
Qed.

Lemma walk_done_kids f t t' : walk retok vt f t = Done t' -> forall k, In k (kids_of t) -> exists k', f k = Done k'.
Proof.
  destruct t as [a p g|l a ks]; cbn [kids_of walk]; [intros _ k []|].
  destruct (traverse va a); try discriminate. destruct (traverse f ks) eqn:E; try discriminate.
  intros _ k Hk. apply traverse_done in E. clear - E Hk. induction E as [|x y ks l E1 E IH]; [contradiction|].
  destruct Hk as [<-|Hk]; eauto.
Qed.
Lemma nested_never : nested v -> forall d t t', has_placeholder t -> vis d t <> Done t'.
Proof.
  intros [kv [Hkv Pv]]. induction d as [|d IH]; intros t t' [s [Hs P]] E; [discriminate|].
  inversion Hs as [|t0 k Hk Hsk]; subst.
  - destruct (visit_case d t) as [_ W|G _|N _]; [|exact (proj2 G (proj2 P))|exact (N (proj1 P))].
    rewrite W in E. destruct (walk_done_kids _ _ _ E kv Hkv) as [k' E']. apply (IH kv k' Pv E').
  - assert (N : ~ named t). { destruct t; [contradiction|apply nd_not_named]. }
    destruct (visit_case d t) as [P0 _|G _|_ W]; [exact (N (proj1 P0))|exact (N (proj1 G))|].
    rewrite W in E. destruct (walk_done_kids _ _ _ E k Hk) as [k' E']. apply (IH k k'); [|exact E'].
    exists s. auto.
Qed.

(** ** Panics *)
Definition bad (t : node) : Prop :=
  exists s a, inside s t /\ ~ named s /\ In a (attrs_of s) /\ attr_fails retok vt a.

Lemma walk_crash f t : walk retok vt f t = Crash ->
  (exists a, In a (attrs_of t) /\ attr_fails retok vt a) \/ (exists k, In k (kids_of t) /\ f k = Crash).
Proof.
  destruct t as [a p g|l a k]; cbn [walk attrs_of kids_of].
  - destruct (traverse va a) eqn:E; try discriminate. intros _. apply traverse_crash in E. destruct E as [x [Hx Ex]].
    left. exists x. split; [exact Hx|apply va_crash; exact Ex].
  - destruct (traverse va a) eqn:E; try discriminate.
    + destruct (traverse f k) eqn:Ek; try discriminate. intros _. right. apply traverse_crash. exact Ek.
    + intros _. apply traverse_crash in E. destruct E as [x [Hx Ex]].
      left. exists x. split; [exact Hx|apply va_crash; exact Ex].
Qed.
Lemma silent_not_fails a : silent (at_text a) -> ~ attr_fails retok vt a.
Proof. intros S [s [N _]]. exact (new_text_not_silent _ _ N S). Qed.

Lemma crash_bad : quiet v -> forall d t, vis d t = Crash -> bad t.
Proof.
  intros Q. induction d as [|d IH]; intros t E; [discriminate|].
  destruct (visit_case d t) as [P W|G W|N W]; rewrite W in E.
  - exfalso. apply walk_crash in E. destruct E as [[a [Ha F]]|[k [Hk F]]].
    + exact (silent_not_fails a (proj2 (Q v (in_here _)) a Ha) F).
    + destruct (quiet_fixed k (quiet_kid _ _ Q Hk)) as [d0 H]. destruct (H (Nat.max d d0) ltac:(lia)) as [H1 _].
      rewrite (visit_more d) in H1 by (try congruence; lia). congruence.
  - discriminate.
  - apply walk_crash in E. destruct E as [[a [Ha F]]|[k [Hk F]]].
    + exists t, a. split; [constructor|]. auto.
    + destruct (IH k F) as [s [a [H1 H2]]]. exists s, a. split; [apply (in_kid _ t k); auto|exact H2].
Qed.
Lemma replaced_not_bad t t' : replaced retok vt v t t' -> ~ bad t.
Proof.
  revert t'. induction t as [a p g|l a k IH] using node_ind2; intros t' R [s [x [Hs [Hn [Hx F]]]]].
  - apply mac_inside in Hs. subst s. inversion R as [t P|t G|? a' ? ? N0 Fa|]; subst;
      [exact (Hn (proj1 P))|exact (Hn (proj1 G))|].
    cbn in Hx. clear - Fa Hx F. induction Fa as [|y z a a' H Fa IH]; [contradiction|].
    destruct Hx as [<-|Hx]; [eapply attr_replaced_not_fails; eauto|auto].
  - assert (N := nd_not_named l a k).
    inversion R as [t P|t G| |? ? a' ? k' Fa Fk]; subst; [exact (N (proj1 P))|exact (N (proj1 G))|].
    apply nd_inside in Hs. destruct Hs as [->|[y [Hy Hs]]].
    + cbn in Hx. clear - Fa Hx F. induction Fa as [|y z a a' H Fa IH]; [contradiction|].
      destruct Hx as [<-|Hx]; [eapply attr_replaced_not_fails; eauto|auto].
    + assert (exists y', replaced retok vt v y y') as [y' Ry].
      { clear - Fk Hy. induction Fk as [|z z' k k' H Fk IH]; [contradiction|]. destruct Hy as [<-|Hy]; eauto. }
      rewrite Forall_forall in IH. apply (IH y Hy y' Ry). exists s, x. auto.
Qed.

Lemma quiet_not_nested : quiet v -> ~ nested v.
Proof.
  intros Q [k [Hk [s [Hs P]]]]. apply (proj1 (Q s (in_kid _ _ _ Hk Hs))). exact P.
Qed.

(** ** What is left *)
Lemma F2_in_r {A B} (R : A -> B -> Prop) l l' y : Forall2 R l l' -> In y l' -> exists x, In x l /\ R x y.
Proof. intros F. induction F as [|a b l l' H F IH]; intros []; subst; eauto with datatypes. destruct IH as [x [? ?]]; eauto with datatypes. Qed.
Lemma F2_in_l {A B} (R : A -> B -> Prop) l l' x : Forall2 R l l' -> In x l -> exists y, In y l' /\ R x y.
Proof. intros F. induction F as [|a b l l' H F IH]; intros []; subst; eauto with datatypes. destruct IH as [y [? ?]]; eauto with datatypes. Qed.

Lemma named_same_path a p g a' g' : named (Mac a p g) -> named (Mac a' p g').
Proof. intros [x [q [y E]]]. injection E as -> -> ->. exists a', q, g'. reflexivity. Qed.

(** Where a node of the result comes from. *)
Lemma replaced_inside : forall t t', replaced retok vt v t t' -> forall s', inside s' t' ->
  inside s' v \/ exists s, inside s t /\ replaced retok vt v s s' /\ ~ placeholder s.
Proof.
  intros t. induction t as [a p g|l a k IH] using node_ind2; intros t' R s' Hs.
  - inversion R as [t P|t G|? a' ? ? N0 Fa|]; subst.
    + left. exact Hs.
    + apply mac_inside in Hs. subst s'. right. exists (Mac a p g). split; [constructor|]. split; [exact R|].
      intros P. exact (proj2 G (proj2 P)).
    + apply mac_inside in Hs. subst s'. right. exists (Mac a p g). split; [constructor|]. split; [exact R|].
      intros P. exact (N0 (proj1 P)).
  - assert (N := nd_not_named l a k).
    inversion R as [t P|t G| |? ? a' ? k' Fa Fk]; subst; [exfalso; exact (N (proj1 P))|exfalso; exact (N (proj1 G))|].
    apply nd_inside in Hs. destruct Hs as [->|[y' [Hy Hs]]].
    + right. exists (Nd l a k). split; [constructor|]. split; [exact R|]. intros P. exact (N (proj1 P)).
    + destruct (F2_in_r _ _ _ _ Fk Hy) as [y [Hin Ry]]. rewrite Forall_forall in IH.
      destruct (IH y Hin y' Ry s' Hs) as [H|[s [H1 H2]]]; [left; exact H|].
      right. exists s. split; [apply (in_kid _ (Nd l a k) y); auto|exact H2].
Qed.
Lemma replaced_keeps : forall t t', replaced retok vt v t t' -> forall s, inside s t ->
  exists s', inside s' t' /\ replaced retok vt v s s'.
Proof.
  intros t t' R s Hs. revert t' R. induction Hs as [|t k Hk Hs IH]; intros t' R.
  - exists t'. split; [constructor|exact R].
  - destruct t as [a p g|l a ks]; [contradiction|].
    assert (N := nd_not_named l a ks).
    inversion R as [t P|t G| |? ? a' ? k' Fa Fk]; subst; [exfalso; exact (N (proj1 P))|exfalso; exact (N (proj1 G))|].
    destruct (F2_in_l _ _ _ _ Fk Hk) as [y [Hy Ry]]. destruct (IH y Ry) as [s' [H1 H2]].
    exists s'. split; [apply (in_kid _ (Nd l a' k') y); auto|exact H2].
Qed.
End V.
