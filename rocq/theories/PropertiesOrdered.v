(** C65: handles and times in order: comparisons, sorting, ordered maps and sets. *)
From Verif Require Import BaseProofs Arena ArenaSpec ArenaProofs ArenaIter Time PropertiesArenaIter PropertiesTime.
From Verif Require Import Ordered.
From Coq Require Import ZArith Lia List Sorted Permutation.
Import ListNotations.
Import Coq.Strings.String.StringSyntax.
Open Scope string_scope.
Open Scope list_scope.
Open Scope nat_scope.

(** ** Specification *)

(** What comes before what: handles by slot, then generation; times by their ticks. *)
Definition before (k : okind) : okey k -> okey k -> Prop :=
  match k with
  | OHandle => fun a b => ix a < ix b \/ (ix a = ix b /\ (gen a < gen b)%N)
  | OTicks | OChannelTime | ORealmTime => fun a b => (a < b)%Z
  end.

(** An ordered map, which knows nothing of trees: a partial function; a listing has every
    entry once, in ascending order. *)
Section Spec.
Context {K V : Type} (lt : K -> K -> Prop).
Definition omap : Type := K -> option V.
Definition ascending (l : list (K * V)) : Prop := StronglySorted (fun a b => lt (fst a) (fst b)) l.
Definition lists (l : list (K * V)) (Q : K -> V -> Prop) : Prop :=
  ascending l /\ (forall k v, In (k, v) l <-> Q k v).
Definition least (m : omap) (p : option (K * V)) : Prop :=
  match p with
  | None => forall k, m k = None
  | Some (k, v) => m k = Some v /\ forall k' v', m k' = Some v' -> k' = k \/ lt k k'
  end.
Definition greatest (m : omap) (p : option (K * V)) : Prop :=
  match p with
  | None => forall k, m k = None
  | Some (k, v) => m k = Some v /\ forall k' v', m k' = Some v' -> k' = k \/ lt k' k
  end.
Inductive replies (m : omap) : top (K := K) (V := V) -> tret (K := K) (V := V) -> omap -> Prop :=
| r_get k : replies m (TGet k) (TVal (m k)) m
| r_insert k v m' : m' k = Some v -> (forall k', k' <> k -> m' k' = m k') -> replies m (TInsert k v) (TVal (m k)) m'
| r_remove k m' : m' k = None -> (forall k', k' <> k -> m' k' = m k') -> replies m (TRemove k) (TVal (m k)) m'
| r_first p : least m p -> replies m TFirst (TPair p) m
| r_last p : greatest m p -> replies m TLast (TPair p) m
| r_pop_none : (forall k, m k = None) -> replies m TPopFirst (TPair None) m
| r_pop k v m' : least m (Some (k, v)) -> m' k = None -> (forall k', k' <> k -> m' k' = m k') ->
    replies m TPopFirst (TPair (Some (k, v))) m'
| r_iter l : lists l (fun k v => m k = Some v) -> replies m TIter (TList l) m
| r_range lo hi l : ~ lt hi lo -> lists l (fun k v => m k = Some v /\ ~ lt k lo /\ lt k hi) -> replies m (TRange lo hi) (TList l) m
| r_range_panic lo hi : lt hi lo -> replies m (TRange lo hi) TPanics m
| r_balance p b : replies m (TBalance p b) TNone m.
Inductive an_ordered_map : omap -> list (top (K := K) (V := V)) -> list (tret (K := K) (V := V)) -> omap -> Prop :=
| om_nil m : an_ordered_map m [] [] m
| om_cons m o r m1 os rs m' : replies m o r m1 -> an_ordered_map m1 os rs m' -> an_ordered_map m (o :: os) (r :: rs) m'.
End Spec.

(** ** The orders *)
Lemma before_trans k a b c : before k a b -> before k b c -> before k a c.
Proof. destruct k; cbn; try lia. Qed.
Lemma before_irrefl k a : ~ before k a a.
Proof. destruct k; cbn; lia. Qed.
Lemma okey_lt_iff k a b : okey_cmp k a b = Lt <-> before k a b.
Proof.
  destruct k; cbn; try apply Z.compare_lt_iff.
  unfold index_cmp. destruct (Nat.compare_spec (ix a) (ix b)) as [E|E|E]; [rewrite N.compare_lt_iff; lia|split; auto|].
  split; [discriminate|lia].
Qed.
Lemma okey_eq_iff k a b : okey_cmp k a b = Eq <-> a = b.
Proof. destruct k; cbn; try apply Z.compare_eq_iff. apply C37_handle_order_is_total. Qed.
Lemma okey_gt_iff k a b : okey_cmp k a b = Gt <-> before k b a.
Proof.
  rewrite <- okey_lt_iff. destruct k; cbn; try (rewrite Z.compare_antisym; destruct (Z.compare b a); cbn; split; congruence).
  destruct C37_handle_order_is_total as [_ [H _]]. rewrite (H b a). destruct (index_cmp b a); cbn; split; congruence.
Qed.

Theorem C65_the_orders_are_lawful :
  forall k (a b c : okey k),
    (okey_cmp k a b = Lt <-> before k a b) /\ (okey_cmp k a b = Gt <-> before k b a) /\
    (okey_cmp k a b = Eq <-> a = b) /\ (okey_eqb k a b = true <-> a = b) /\
    okey_partial_cmp k a b = Some (okey_cmp k a b) /\
    ~ before k a a /\ (before k a b -> before k b c -> before k a c) /\ (a = b \/ before k a b \/ before k b a) /\
    (okey_lt k a b = true <-> before k a b) /\ (okey_gt k a b = true <-> before k b a) /\
    (okey_le k a b = true <-> ~ before k b a) /\ (okey_ge k a b = true <-> ~ before k a b) /\
    (okey_max k a b = a \/ okey_max k a b = b) /\ ~ before k (okey_max k a b) a /\ ~ before k (okey_max k a b) b /\
    (okey_min k a b = a \/ okey_min k a b = b) /\ ~ before k a (okey_min k a b) /\ ~ before k b (okey_min k a b).
Proof.
  intros k a b c. pose proof (okey_lt_iff k a b) as HL. pose proof (okey_gt_iff k a b) as HG. pose proof (okey_eq_iff k a b) as HE.
  pose proof (before_irrefl k) as HI. pose proof (before_trans k) as HT.
  assert (Q : okey_eqb k a b = true <-> a = b).
  { destruct k; cbn; try apply Z.eqb_eq. unfold index_eqb. rewrite Bool.andb_true_iff, Nat.eqb_eq, N.eqb_eq.
    destruct a, b; cbn. split; [intros [-> ->]; reflexivity|intros [= -> ->]; auto]. }
  unfold okey_lt, okey_gt, okey_le, okey_ge, okey_partial_cmp, okey_max, okey_min.
  destruct (okey_cmp k a b) eqn:E.
  - destruct HE as [HE _]. specialize (HE eq_refl). subst b.
    assert (~ before k a a) by apply HI. repeat split; auto; try congruence; try tauto; try apply HT.
  - destruct HL as [HL HL']. specialize (HL eq_refl).
    assert (~ before k b a) by (intros K; apply (HI a); eapply HT; eassumption).
    repeat split; auto; try congruence; try tauto; try apply HI; try (intros; congruence); try apply HT; try apply Q; try tauto.
  - destruct HG as [HG HG']. specialize (HG eq_refl).
    assert (~ before k a b) by (intros K; apply (HI a); eapply HT; eassumption).
    repeat split; auto; try congruence; try tauto; try apply HI; try (intros; congruence); try apply HT; try apply Q; try tauto.
Qed.
Print Assumptions C65_the_orders_are_lawful.

(** ** Trees *)
Section Trees.
Context {K V : Type} (cmp : K -> K -> comparison) (lt : K -> K -> Prop).
Hypothesis cmp_lt : forall a b, cmp a b = Lt <-> lt a b.
Hypothesis cmp_gt : forall a b, cmp a b = Gt <-> lt b a.
Hypothesis cmp_eq : forall a b, cmp a b = Eq <-> a = b.
Hypothesis lt_irr : forall a, ~ lt a a.
Hypothesis lt_trans : forall a b c, lt a b -> lt b c -> lt a c.
Notation tr := (@tree K V).
Notation asc := (@ascending K V lt).

Lemma ss_app {A} (R : A -> A -> Prop) l1 l2 : StronglySorted R (l1 ++ l2) <->
  StronglySorted R l1 /\ StronglySorted R l2 /\ (forall x y, In x l1 -> In y l2 -> R x y).
Proof using.
  induction l1 as [|x l1 IH]; cbn [app].
  - split; [intros H; split; [constructor|]; split; [exact H|intros ? ? []]|intros (_ & H & _); exact H].
  - split.
    + intros H. inversion H as [|? ? H1 H2]; subst. apply IH in H1. destruct H1 as (A1 & A2 & A3). rewrite Forall_forall in H2.
      split; [constructor; [exact A1|]|split; [exact A2|]].
      * apply Forall_forall. intros y Hy. apply H2, in_app_iff. auto.
      * intros a b [->|Ha] Hb; [apply H2, in_app_iff; auto|apply A3; assumption].
    + intros (H1 & H2 & H3). inversion H1 as [|? ? H4 H5]; subst. constructor.
      * apply IH. split; [exact H4|]. split; [exact H2|]. intros a b Ha Hb. apply H3; [right|]; assumption.
      * rewrite Forall_forall in *. intros y Hy. apply in_app_iff in Hy. destruct Hy as [Hy|Hy]; [apply H5, Hy|apply H3; [left; reflexivity|exact Hy]].
Qed.
Lemma asc_node (l : tr) k v (r : tr) : asc (t_iter (Node l k v r)) <->
  asc (t_iter l) /\ asc (t_iter r) /\ (forall x, In x (t_iter l) -> lt (fst x) k) /\ (forall y, In y (t_iter r) -> lt k (fst y)).
Proof using lt_trans.
  unfold ascending. cbn [t_iter]. rewrite ss_app. split.
  - intros (H1 & H2 & H3). inversion H2 as [|? ? H4 H5]; subst. rewrite Forall_forall in H5.
    split; [exact H1|]. split; [exact H4|]. split; [|exact H5]. intros x Hx. apply (H3 x (k, v) Hx). left. reflexivity.
  - intros (H1 & H2 & H3 & H4). split; [exact H1|]. split.
    + constructor; [exact H2|]. apply Forall_forall. exact H4.
    + intros x y Hx [<-|Hy]; [apply H3, Hx|]. eapply lt_trans; [apply H3, Hx|apply H4, Hy].
Qed.
Lemma in_node (l : tr) k v (r : tr) (x : K * V) : In x (t_iter (Node l k v r)) <-> In x (t_iter l) \/ x = (k, v) \/ In x (t_iter r).
Proof using. cbn [t_iter]. rewrite in_app_iff. cbn [In]. intuition. Qed.

Lemma get_in (t : tr) k v : asc (t_iter t) -> (t_get cmp t k = Some v <-> In (k, v) (t_iter t)).
Proof using cmp_lt cmp_gt cmp_eq lt_irr lt_trans.
  induction t as [|l IHl k' v' r IHr]; [cbn; split; [discriminate|intros []]|].
  intros H. apply asc_node in H. destruct H as (H1 & H2 & H3 & H4). rewrite in_node. cbn [t_get].
  destruct (cmp k k') eqn:E.
  - apply cmp_eq in E. subst k'. split; [intros [= ->]; auto|]. intros [Q|[Q|Q]]; [|congruence|].
    + apply H3 in Q. destruct (lt_irr _ Q).
    + apply H4 in Q. destruct (lt_irr _ Q).
  - apply cmp_lt in E. rewrite (IHl H1). split; [auto|]. intros [Q|[Q|Q]]; [exact Q| |].
    + injection Q as -> ->. destruct (lt_irr _ E).
    + apply H4 in Q. cbn in Q. destruct (lt_irr k). eauto.
  - apply cmp_gt in E. rewrite (IHr H2). split; [auto|]. intros [Q|[Q|Q]]; [| |exact Q].
    + apply H3 in Q. cbn in Q. destruct (lt_irr k). eauto.
    + injection Q as -> ->. destruct (lt_irr _ E).
Qed.
Lemma put_in (t : tr) k v : asc (t_iter t) -> asc (t_iter (t_put cmp t k v)) /\
  forall x, In x (t_iter (t_put cmp t k v)) <-> x = (k, v) \/ (In x (t_iter t) /\ fst x <> k).
Proof using cmp_lt cmp_gt cmp_eq lt_irr lt_trans.
  induction t as [|l IHl k' v' r IHr].
  - intros _. cbn. split; [repeat constructor|]. intros x. split; [intros [<-|[]]; auto|intros [->|[[] _]]; auto].
  - intros H. apply asc_node in H. destruct H as (H1 & H2 & H3 & H4). cbn [t_put]. destruct (cmp k k') eqn:E.
    + apply cmp_eq in E. subst k'. split; [apply asc_node; auto|]. intros x. rewrite !in_node. split.
      * intros [Q|[->|Q]]; [right|auto|right]; split; auto; intros F; [apply H3 in Q|apply H4 in Q]; rewrite F in Q; destruct (lt_irr _ Q).
      * intros [->|[[Q|[->|Q]] F]]; auto. destruct F. reflexivity.
    + apply cmp_lt in E. destruct (IHl H1) as [A B]. split.
      * apply asc_node. split; [exact A|]. split; [exact H2|]. split; [|exact H4]. intros x Hx. apply B in Hx. destruct Hx as [->|[Hx _]]; [exact E|auto].
      * intros x. rewrite !in_node, B. split.
        -- intros [[Q|[Q F]]|[->|Q]]; auto; right; split; auto; intros F; [cbn in F; subst k'; destruct (lt_irr _ E)|].
           apply H4 in Q. rewrite F in Q. destruct (lt_irr k). eauto.
        -- intros [->|[[Q|[->|Q]] F]]; auto.
    + apply cmp_gt in E. destruct (IHr H2) as [A B]. split.
      * apply asc_node. split; [exact H1|]. split; [exact A|]. split; [exact H3|]. intros x Hx. apply B in Hx. destruct Hx as [->|[Hx _]]; [exact E|auto].
      * intros x. rewrite !in_node, B. split.
        -- intros [Q|[->|[Q|[Q F]]]]; auto; right; split; auto; intros F; [|cbn in F; subst k'; destruct (lt_irr _ E)].
           apply H3 in Q. rewrite F in Q. destruct (lt_irr k). eauto.
        -- intros [->|[[Q|[->|Q]] F]]; auto.
Qed.
Lemma first_hd (t : tr) : t_first t = hd_error (t_iter t).
Proof using.
  induction t as [|l IHl k v r IHr]; [reflexivity|]. cbn [t_first t_iter]. rewrite IHl. destruct (t_iter l); reflexivity.
Qed.
Lemma del_first_tl (t : tr) : t_iter (t_del_first t) = tl (t_iter t).
Proof using.
  induction t as [|l IHl k v r IHr]; [reflexivity|]. destruct l as [|l1 k1 v1 r1]; [reflexivity|].
  change (t_del_first (Node (Node l1 k1 v1 r1) k v r)) with (Node (t_del_first (Node l1 k1 v1 r1)) k v r).
  cbn [t_iter] in *. rewrite IHl. destruct (t_iter l1); reflexivity.
Qed.
Lemma last_last (t : tr) : t_last t = hd_error (rev (t_iter t)).
Proof using.
  induction t as [|l IHl k v r IHr]; [reflexivity|]. cbn [t_last t_iter]. rewrite rev_app_distr. cbn [rev]. rewrite IHr.
  rewrite <- !app_assoc. destruct (rev (t_iter r)); reflexivity.
Qed.
Lemma asc_cons (x : K * V) l : asc (x :: l) <-> asc l /\ forall y, In y l -> lt (fst x) (fst y).
Proof using.
  unfold ascending. split; [intros H; inversion H as [|? ? H1 H2]; subst; rewrite Forall_forall in H2; auto|].
  intros [H1 H2]. constructor; [exact H1|]. apply Forall_forall. exact H2.
Qed.
Lemma del_in (t : tr) k : asc (t_iter t) -> asc (t_iter (t_del cmp t k)) /\
  forall x, In x (t_iter (t_del cmp t k)) <-> In x (t_iter t) /\ fst x <> k.
Proof using cmp_lt cmp_gt cmp_eq lt_irr lt_trans.
  induction t as [|l IHl k' v' r IHr].
  - intros _. cbn. split; [constructor|]. intuition.
  - intros H. apply asc_node in H. destruct H as (H1 & H2 & H3 & H4). cbn [t_del]. destruct (cmp k k') eqn:E.
    + apply cmp_eq in E. subst k'.
      assert (Nl : forall x, In x (t_iter l) -> fst x <> k) by (intros x Hx F; apply H3 in Hx; rewrite F in Hx; destruct (lt_irr _ Hx)).
      assert (Nr : forall x, In x (t_iter r) -> fst x <> k) by (intros x Hx F; apply H4 in Hx; rewrite F in Hx; destruct (lt_irr _ Hx)).
      rewrite first_hd. destruct (t_iter r) as [|[k1 v1] r'] eqn:Er.
      * cbn [hd_error]. split; [exact H1|]. intros x. rewrite in_node, Er. split; [intros Q; split; auto|].
        intros [[Q|[->|[]]] F]; auto. destruct F. reflexivity.
      * cbn [hd_error]. apply asc_cons in H2. destruct H2 as [H2 H5]. split.
        -- apply asc_node. rewrite del_first_tl, Er. cbn [tl]. split; [exact H1|]. split; [exact H2|]. split; [|exact H5].
           intros x Hx. eapply lt_trans; [apply H3, Hx|]. apply (H4 (k1, v1)). left. reflexivity.
        -- intros x. rewrite !in_node, del_first_tl, Er. cbn [tl]. split.
           ++ intros [Q|[->|Q]]; [split; auto| |split; [right; right; right; exact Q|apply Nr; right; exact Q]].
              split; [right; right; left; reflexivity|]. apply Nr. left. reflexivity.
           ++ intros [[Q|[->|[<-|Q]]] F]; auto. destruct F. reflexivity.
    + apply cmp_lt in E. destruct (IHl H1) as [A B]. split.
      * apply asc_node. split; [exact A|]. split; [exact H2|]. split; [|exact H4]. intros x Hx. apply B in Hx. apply H3, Hx.
      * intros x. rewrite !in_node, B. split.
        -- intros [[Q F]|[->|Q]]; split; auto; [intros F; cbn in F; subst k'; destruct (lt_irr _ E)|].
           intros F. apply H4 in Q. rewrite F in Q. destruct (lt_irr k). eauto.
        -- intros [[Q|[->|Q]] F]; auto.
    + apply cmp_gt in E. destruct (IHr H2) as [A B]. split.
      * apply asc_node. split; [exact H1|]. split; [exact A|]. split; [exact H3|]. intros x Hx. apply B in Hx. apply H4, Hx.
      * intros x. rewrite !in_node, B. split.
        -- intros [Q|[->|[Q F]]]; split; auto; [|intros F; cbn in F; subst k'; destruct (lt_irr _ E)].
           intros F. apply H3 in Q. rewrite F in Q. destruct (lt_irr k). eauto.
        -- intros [[Q|[->|Q]] F]; auto.
Qed.
Lemma range_in (t : tr) lo hi : asc (t_iter t) -> asc (t_range cmp t lo hi) /\
  forall x, In x (t_range cmp t lo hi) <-> In x (t_iter t) /\ ~ lt (fst x) lo /\ lt (fst x) hi.
Proof using cmp_lt cmp_gt cmp_eq lt_irr lt_trans.
  induction t as [|l IHl k v r IHr].
  - intros _. cbn. split; [constructor|]. intuition.
  - intros H. apply asc_node in H. destruct H as (H1 & H2 & H3 & H4). destruct (IHl H1) as [A1 B1]. destruct (IHr H2) as [A2 B2].
    cbn [t_range].
    assert (Hge : forall c, cmp lo k = c -> c <> Gt -> ~ lt k lo).
    { intros c Ec Nc F. apply cmp_gt in F. congruence. }
    assert (Lo : cmp lo k <> Gt -> asc (match cmp k hi with Lt => t_range cmp l lo hi ++ (k, v) :: t_range cmp r lo hi | _ => t_range cmp l lo hi end) /\
      forall x, In x (match cmp k hi with Lt => t_range cmp l lo hi ++ (k, v) :: t_range cmp r lo hi | _ => t_range cmp l lo hi end) <->
        In x (t_iter (Node l k v r)) /\ ~ lt (fst x) lo /\ lt (fst x) hi).
    { intros Nc. assert (Ge : ~ lt k lo) by (eapply Hge; eauto). clear Hge. destruct (cmp k hi) eqn:E2.
      - apply cmp_eq in E2. subst hi. split; [exact A1|]. intros x. rewrite B1, in_node. split; [intros (Q1 & Q2 & Q3); auto|].
        intros ([Q1|[->|Q1]] & Q2 & Q3); auto; [destruct (lt_irr _ Q3)|]. apply H4 in Q1. destruct (lt_irr k). eauto.
      - apply cmp_lt in E2. split.
        + unfold ascending. apply ss_app. split; [exact A1|]. split; [apply asc_cons; split; [exact A2|]|].
          * intros y Hy. apply B2 in Hy. apply H4, Hy.
          * intros x y Hx Hy. apply B1 in Hx. destruct Hx as [Hx _]. apply H3 in Hx. destruct Hy as [<-|Hy]; [exact Hx|].
            apply B2 in Hy. destruct Hy as [Hy _]. apply H4 in Hy. eauto.
        + intros x. rewrite in_app_iff. cbn [In]. rewrite B1, B2, in_node. split.
          * intros [(Q1 & Q2 & Q3)|[<-|(Q1 & Q2 & Q3)]]; cbn; auto 8.
          * intros ([Q1|[->|Q1]] & Q2 & Q3); auto.
      - apply cmp_gt in E2. split; [exact A1|]. intros x. rewrite B1, in_node. split; [intros (Q1 & Q2 & Q3); auto|].
        intros ([Q1|[->|Q1]] & Q2 & Q3); auto; [cbn in Q3; destruct (lt_irr k); eauto|]. apply H4 in Q1. destruct (lt_irr k). eauto. }
    destruct (cmp lo k) eqn:E1.
    + apply Lo. discriminate.
    + apply Lo. discriminate.
    + apply cmp_gt in E1. split; [exact A2|]. intros x. rewrite B2, in_node. split; [intros (Q1 & Q2 & Q3); auto|].
      intros ([Q1|[->|Q1]] & Q2 & Q3); auto; [|destruct Q2; exact E1]. destruct Q2. apply H3 in Q1. eauto.
Qed.
Lemma rotate_iter (t : tr) p b : t_iter (t_rotate t p b) = t_iter t.
Proof using.
  revert t. induction p as [|[|] p IH]; intros t; cbn [t_rotate].
  - destruct b; [destruct t as [|a k v [|b' k' v' c]]|destruct t as [|[|a k v b'] k' v' c]]; cbn; try reflexivity; rewrite <- ?app_assoc; reflexivity.
  - destruct t as [|l k v r]; [reflexivity|]. cbn [t_rotate t_iter]. rewrite IH. reflexivity.
  - destruct t as [|l k v r]; [reflexivity|]. cbn [t_rotate t_iter]. rewrite IH. reflexivity.
Qed.

Definition holds (t : tr) (m : @omap K V) : Prop := asc (t_iter t) /\ forall k v, In (k, v) (t_iter t) <-> m k = Some v.
Lemma holds_get t m k : holds t m -> t_get cmp t k = m k.
Proof using cmp_lt cmp_gt cmp_eq lt_irr lt_trans.
  intros [A B]. destruct (m k) as [v|] eqn:E.
  - apply (get_in t k v A), B, E.
  - destruct (t_get cmp t k) as [v|] eqn:F; [|reflexivity]. apply (get_in t k v A) in F. apply B in F. congruence.
Qed.
Lemma key_dec (a b : K) : {a = b} + {a <> b}.
Proof using cmp_eq. destruct (cmp a b) eqn:E; [left; apply cmp_eq, E|right|right]; intros F; apply cmp_eq in F; congruence. Qed.
Lemma hd_least t m : holds t m -> least lt m (t_first t).
Proof using.
  intros [A B]. rewrite first_hd. destruct (t_iter t) as [|[k v] l]; cbn.
  - intros k. destruct (m k) as [v|] eqn:E; [|reflexivity]. apply B in E. destruct E.
  - split; [apply B; left; reflexivity|]. intros k' v' E. apply B in E. destruct E as [E|E]; [left; congruence|].
    right. apply asc_cons in A. apply (proj2 A _ E).
Qed.
Lemma last_greatest t m : holds t m -> greatest lt m (t_last t).
Proof using.
  intros [A B]. rewrite last_last. destruct (rev (t_iter t)) as [|[k v] l] eqn:R.
  - cbn. intros k. destruct (m k) as [v|] eqn:E; [|reflexivity]. apply B, in_rev in E. rewrite R in E. destruct E.
  - assert (Q : t_iter t = rev l ++ [(k, v)]) by (rewrite <- (rev_involutive (t_iter t)), R; reflexivity).
    rewrite Q in A, B. unfold ascending in A. apply ss_app in A. destruct A as (_ & _ & A). cbn. split; [apply B, in_app_iff; cbn; auto|].
    intros k' v' E. apply B, in_app_iff in E. destruct E as [E|[E|[]]]; [|left; congruence].
    right. apply (A _ (k, v) E). left. reflexivity.
Qed.

Lemma run_ordered ops : forall t m rs u, holds t m -> trun cmp t ops = (rs, u) ->
  exists m', an_ordered_map lt m ops rs m' /\ holds u m'.
Proof using cmp_lt cmp_gt cmp_eq lt_irr lt_trans.
  induction ops as [|o ops IH]; intros t m rs u H E; cbn [trun] in E.
  { injection E as <- <-. exists m. split; [constructor|exact H]. }
  destruct (tstep cmp t o) as [x t1] eqn:S1. destruct (trun cmp t1 ops) as [xs w] eqn:R. injection E as <- <-.
  assert (Hs : exists m1, replies lt m o x m1 /\ holds t1 m1).
  { pose proof H as [A B]. destruct o as [k|k v|k| | | | |lo hi|p b]; cbn [tstep] in S1; injection S1 as <- <-.
    - exists m. split; [rewrite (holds_get _ _ _ H); constructor|exact H].
    - exists (fun k' => if key_dec k' k then Some v else m k'). rewrite (holds_get _ _ _ H). split.
      + constructor; [destruct (key_dec k k); congruence|]. intros k' N. destruct (key_dec k' k); congruence.
      + destruct (put_in t k v A) as [A' B']. split; [exact A'|]. intros k' v'. rewrite B', B. cbn [fst].
        destruct (key_dec k' k) as [->|N]; split; [intros [Q|[_ Q]]; congruence|intros [= ->]; auto|intros [Q|[Q _]]; congruence|auto].
    - exists (fun k' => if key_dec k' k then None else m k'). rewrite (holds_get _ _ _ H). split.
      + constructor; [destruct (key_dec k k); congruence|]. intros k' N. destruct (key_dec k' k); congruence.
      + destruct (del_in t k A) as [A' B']. split; [exact A'|]. intros k' v'. rewrite B', B. cbn [fst].
        destruct (key_dec k' k) as [->|N]; split; [intros [_ Q]; congruence|discriminate|tauto|auto].
    - exists m. split; [constructor; apply hd_least; exact H|exact H].
    - exists m. split; [constructor; apply last_greatest; exact H|exact H].
    - pose proof (hd_least _ _ H) as Hl. rewrite first_hd in *. pose proof (del_first_tl t) as D.
      destruct (t_iter t) as [|[k v] l] eqn:Et; cbn [hd_error tl] in *.
      + exists m. split; [constructor; exact Hl|]. split; rewrite D; [constructor|]. intros k v. split; [intros []|intros Q; apply B in Q; exact Q].
      + apply asc_cons in A. destruct A as [A1 A2].
        exists (fun k' => if key_dec k' k then None else m k'). split.
        * constructor; [exact Hl|destruct (key_dec k k); congruence|]. intros k' N. destruct (key_dec k' k); congruence.
        * split; rewrite D; [exact A1|]. intros k' v'. destruct (key_dec k' k) as [->|N].
          -- split; [|discriminate]. intros Q. apply A2 in Q. destruct (lt_irr _ Q).
          -- rewrite <- B. cbn [In]. split; [auto|intros [Q|Q]; congruence].
    - exists m. split; [constructor; exact H|exact H].
    - exists m. split; [|exact H]. destruct (range_in t lo hi A) as [A' B'].
      assert (Q : ~ lt hi lo -> replies lt m (TRange lo hi) (TList (t_range cmp t lo hi)) m).
      { intros N. constructor; [exact N|]. split; [exact A'|]. intros k v. rewrite B', B. reflexivity. }
      destruct (cmp lo hi) eqn:E; [apply Q|apply Q|constructor; apply cmp_gt, E]; intros F; apply cmp_gt in F; congruence.
    - exists m. split; [constructor|]. split; rewrite rotate_iter; assumption. }
  destruct Hs as (m1 & Hr & H1). destruct (IH _ _ _ _ H1 R) as (m' & Hm & Hu). exists m'. split; [econstructor; eassumption|exact Hu].
Qed.

(** A listing in order is determined by what it lists. *)
Lemma lists_unique (l1 l2 : list (K * V)) : asc l1 -> asc l2 -> (forall x, In x l1 <-> In x l2) -> l1 = l2.
Proof using lt_irr lt_trans.
  revert l2. induction l1 as [|x l1 IH]; intros l2 H1 H2 Q.
  - destruct l2 as [|y l2]; [reflexivity|]. destruct (proj2 (Q y) (or_introl eq_refl)).
  - destruct l2 as [|y l2]; [destruct (proj1 (Q x) (or_introl eq_refl))|].
    apply asc_cons in H1. destruct H1 as [H1 L1]. apply asc_cons in H2. destruct H2 as [H2 L2].
    assert (x = y).
    { destruct (proj1 (Q x) (or_introl eq_refl)) as [E|E]; [auto|]. destruct (proj2 (Q y) (or_introl eq_refl)) as [F|F]; [auto|].
      destruct (lt_irr (fst x)). eapply lt_trans; [apply L1, F|apply L2, E]. }
    subst y. f_equal. apply IH; auto. intros z. split; intros Hz.
    + destruct (proj1 (Q z) (or_intror Hz)) as [E|E]; [|exact E]. subst z. destruct (lt_irr _ (L1 _ Hz)).
    + destruct (proj2 (Q z) (or_intror Hz)) as [E|E]; [|exact E]. subst z. destruct (lt_irr _ (L2 _ Hz)).
Qed.
End Trees.

(** ** The theorems *)

(** Any kind of key, any values, any calls, the tree rebalanced anywhere at any time: the
    answers are those of an ordered map. *)
Theorem C65_ordered_maps_keep_their_order :
  forall (k : okind) (V : Type) (ops : list (top (K := okey k) (V := V))) rs t,
    trun (okey_cmp k) Leaf ops = (rs, t) ->
    exists m, an_ordered_map (before k) (fun _ => None) ops rs m /\ (forall x, t_get (okey_cmp k) t x = m x).
Proof.
  intros k V ops rs t E.
  destruct (run_ordered (okey_cmp k) (before k) (okey_lt_iff k) (okey_gt_iff k) (okey_eq_iff k) (before_irrefl k) (before_trans k)
              ops Leaf (fun _ => None) rs t) as (m & H & G).
  - split; [constructor|]. intros x v. split; [intros []|discriminate].
  - exact E.
  - exists m. split; [exact H|]. intros x. exact (holds_get _ _ (okey_lt_iff k) (okey_gt_iff k) (okey_eq_iff k) (before_irrefl k) (before_trans k) t m x G).
Qed.
Print Assumptions C65_ordered_maps_keep_their_order.

(** Two histories that leave the same entries leave the same listing: the order of
    insertion, the removals and the shape of the tree are forgotten. *)
Theorem C65_listings_forget_the_history :
  forall (k : okind) (V : Type) (ops1 ops2 : list (top (K := okey k) (V := V))) rs1 t1 rs2 t2,
    trun (okey_cmp k) Leaf ops1 = (rs1, t1) -> trun (okey_cmp k) Leaf ops2 = (rs2, t2) ->
    (forall x, t_get (okey_cmp k) t1 x = t_get (okey_cmp k) t2 x) ->
    t_iter t1 = t_iter t2.
Proof.
  intros k V ops1 ops2 rs1 t1 rs2 t2 E1 E2 H.
  assert (Hs : forall ops rs t, trun (okey_cmp k) Leaf ops = (rs, t) -> exists m, holds (before k) t m /\ forall x : okey k, t_get (okey_cmp k) t x = (m x : option V)).
  { intros ops rs t E.
    destruct (run_ordered (okey_cmp k) (before k) (okey_lt_iff k) (okey_gt_iff k) (okey_eq_iff k) (before_irrefl k) (before_trans k)
                ops Leaf (fun _ => None) rs t) as (m & _ & G); [split; [constructor|]; intros x v; split; [intros []|discriminate]|exact E|].
    exists m. split; [exact G|]. intros x. exact (holds_get _ _ (okey_lt_iff k) (okey_gt_iff k) (okey_eq_iff k) (before_irrefl k) (before_trans k) t m x G). }
  destruct (Hs _ _ _ E1) as (m1 & [A1 B1] & G1). destruct (Hs _ _ _ E2) as (m2 & [A2 B2] & G2).
  apply (lists_unique (before k) (before_irrefl k) (before_trans k)); [exact A1|exact A2|].
  intros [x v]. rewrite B1, B2, <- G1, <- G2, H. reflexivity.
Qed.
Print Assumptions C65_listings_forget_the_history.

(** The handles of an arena, put into an ordered map in any order (say, that of a hash set),
    come out in the order in which the arena itself is iterated. *)
Theorem C65_sorting_handles_restores_arena_order :
  forall (A : Type) (n : nat) (os : list (aop A)) (l : list (index * A)),
    Forall aop_ok os -> Permutation l (aiter (afinal (with_capacity n) os)) ->
    t_iter (t_collect (okey_cmp OHandle) l) = aiter (afinal (with_capacity n) os).
Proof.
  intros A n os l Hos P.
  assert (D : NoDup (map fst l)).
  { apply (Permutation_NoDup (l := map fst (aiter (afinal (with_capacity n) os)))); [apply Permutation_map, Permutation_sym, P|].
    apply slots_increasing_nodup. apply iter_from_increasing. }
  assert (C : forall l (t : @tree (okey OHandle) A), NoDup (map fst l) -> ascending (before OHandle) (t_iter t) ->
     (forall x, In x l -> ~ In (fst x) (map fst (t_iter t))) ->
     let t' := fold_left (fun t p => t_put (okey_cmp OHandle) t (fst p) (snd p)) l t in
     ascending (before OHandle) (t_iter t') /\ forall x, In x (t_iter t') <-> In x (t_iter t) \/ In x l).
  { clear. induction l as [|[k v] l IH]; intros t D Ha Hn; cbn zeta; cbn [fold_left fst snd].
    - split; [exact Ha|]. intros x. cbn. tauto.
    - cbn [map fst] in D. inversion D as [|? ? D1 D2]; subst.
      destruct (put_in (okey_cmp OHandle) (before OHandle) (okey_lt_iff OHandle) (okey_gt_iff OHandle) (okey_eq_iff OHandle) (before_irrefl OHandle) (before_trans OHandle) t k v Ha) as [A' B'].
      destruct (IH _ D2 A') as [A2 B2].
      { intros x Hx F. apply in_map_iff in F. destruct F as (y & E & F). apply B' in F. destruct F as [->|[F F2]].
        - apply D1. cbn [fst] in E. rewrite E. apply in_map. exact Hx.
        - apply (Hn x); [right; exact Hx|]. rewrite <- E. apply in_map. exact F. }
      split; [exact A2|]. intros x. rewrite B2, B'. cbn [In]. split; [intros [[->|[Q _]]|Q]; auto|].
      intros [Q|[<-|Q]]; auto. left. right. split; [exact Q|]. intros F. apply (Hn (k, v)); [left; reflexivity|]. cbn [fst].
      rewrite <- F. apply in_map. exact Q. }
  destruct (C l Leaf D) as [C1 C2]; [constructor|intros x _ []|]. clear C.
  apply (lists_unique (before OHandle) (before_irrefl OHandle) (before_trans OHandle)); [exact C1| |].
  - unfold aiter. generalize 0, (items (afinal (with_capacity n) os)). clear. intros i l.
    pose proof (iter_from_increasing i l) as H. induction (iter_from i l) as [|x r IH]; [constructor|].
    destruct x as [h v]. cbn in H. destruct H as [H1 H2]. apply asc_cons. split; [apply IH, H2|]. intros [h' v'] Hy. left. eapply H1, Hy.
  - intros x. unfold t_collect. rewrite C2. cbn [t_iter In]. split; [intros [[]|Q]|intros Q; right].
    + eapply Permutation_in; [exact P|exact Q].
    + eapply Permutation_in; [apply Permutation_sym, P|exact Q].
Qed.
Print Assumptions C65_sorting_handles_restores_arena_order.

(** [binary_search] in a listing without repetitions, sorted: the place of the key, or
    where it belongs. *)
Lemma bsearch_spec k (l : list (okey k)) x : StronglySorted (before k) l ->
  forall fuel left right, right <= length l -> right - left < fuel -> left <= right ->
  (forall i y, i < left -> nth_error l i = Some y -> before k y x) ->
  (forall i y, right <= i -> nth_error l i = Some y -> before k x y) ->
  match bsearch (okey_cmp k) fuel l x left right with
  | inl i => nth_error l i = Some x
  | inr i => i <= length l /\ (forall j y, j < i -> nth_error l j = Some y -> before k y x) /\
             (forall j y, i <= j -> nth_error l j = Some y -> before k x y)
  end.
Proof.
  intros Hs. assert (Hm : forall i j a b, i < j -> nth_error l i = Some a -> nth_error l j = Some b -> before k a b).
  { clear -Hs. induction Hs as [|a l H1 IH H2]; intros i j u v Hij E1 E2; [destruct i; discriminate|].
    destruct j as [|j]; [lia|]. destruct i as [|i]; cbn [nth_error] in *.
    - injection E1 as <-. rewrite Forall_forall in H2. apply H2. eapply nth_error_In. exact E2.
    - apply (IH i j); [lia|assumption|assumption]. }
  induction fuel as [|f IH]; intros lf rt H1 H2 H3 H4 H5; [lia|]. cbn [bsearch].
  destruct (Nat.ltb_spec lf rt) as [L|L]; [|split; [lia|]; split; [exact H4|]; intros j y Hj; apply H5; lia].
  pose proof (Nat.div_lt (rt - lf) 2). assert (Hd : (rt - lf) / 2 < rt - lf) by (apply Nat.div_lt; lia).
  destruct (nth_error l (lf + (rt - lf) / 2)) as [y|] eqn:E; [|apply nth_error_None in E; lia].
  destruct (okey_cmp k y x) eqn:C.
  - apply okey_eq_iff in C. congruence.
  - apply okey_lt_iff in C. apply IH; [lia|lia|lia| |exact H5]. intros i z Hi Ez.
    destruct (Nat.eq_dec i (lf + (rt - lf) / 2)) as [->|Ne]; [congruence|]. eapply before_trans; [|exact C]. eapply (Hm i); [|exact Ez|exact E]. lia.
  - apply okey_gt_iff in C. apply IH; [lia|lia|lia|exact H4|]. intros i z Hi Ez.
    destruct (Nat.eq_dec i (lf + (rt - lf) / 2)) as [->|Ne]; [congruence|]. eapply before_trans; [exact C|]. eapply (Hm _ i); [|exact E|exact Ez]. lia.
Qed.
Theorem C65_binary_search_finds :
  forall k (l : list (okey k)) x, StronglySorted (before k) l ->
    match binary_search (okey_cmp k) l x with
    | inl i => nth_error l i = Some x
    | inr i => i <= length l /\ (forall j y, j < i -> nth_error l j = Some y -> before k y x) /\
               (forall j y, i <= j -> nth_error l j = Some y -> before k x y)
    end.
Proof.
  intros k l x H. unfold binary_search. apply bsearch_spec; auto; try lia. intros i y Hi E.
  assert (nth_error l i <> None) by congruence. apply nth_error_Some in H0. lia.
Qed.
Print Assumptions C65_binary_search_finds.

(** Among the handles an arena hands out for one slot, the later one is the greater one. *)
Theorem C65_a_reused_slot_has_a_greater_handle :
  forall (A : Type) (n : nat) (os1 os2 : list (aop A)) h1 v1 h2 v2,
    Forall aop_ok os1 -> Forall aop_ok os2 ->
    get (afinal (with_capacity n) os1) h1 = Some v1 ->
    get (afinal (with_capacity n) (os1 ++ os2)) h2 = Some v2 ->
    ix h1 = ix h2 -> h1 <> h2 -> before OHandle h1 h2.
Proof.
  intros A n os1 os2 h1 v1 h2 v2 H1 H2 G1 G2 Ei Ne. rewrite afinal_app in G2.
  set (a := afinal (with_capacity n) os1) in *. assert (Ha : ainv a) by (apply afinal_inv; [apply with_capacity_inv|exact H1]). clearbody a.
  set (P := fun a : arena A => get a h1 <> None \/ (dead a h1 /\ forall h v, ix h = ix h1 -> get a h = Some v -> (gen h1 < gen h)%N)).
  assert (Same : forall (a : arena A) h v, get a h1 <> None -> ix h = ix h1 -> get a h = Some v -> h = h1).
  { clear. intros a h v H E G. destruct (get a h1) as [w|] eqn:F; [|congruence]. apply get_nth in G. apply get_nth in F. rewrite E in G.
    rewrite F in G. injection G as G _. destruct h, h1; cbn in *; congruence. }
  assert (St : forall (a : arena A) o, ainv a -> aop_ok o -> P a -> P (fst (astep a o))).
  { intros b o Hb Ho HP. destruct (get (fst (astep b o)) h1) as [w|] eqn:E; [left; congruence|right].
    assert (D : dead (fst (astep b o)) h1).
    { destruct HP as [HP|[HP _]]; [|apply astep_dead; assumption]. destruct (get b h1) as [u|] eqn:F; [|congruence].
      eapply astep_live_or_dead; eassumption. }
    split; [exact D|]. intros h v Eh Gh.
    assert (Old : get b h = Some v -> (gen h1 < gen h)%N).
    { intros K. destruct HP as [HP|[_ HP]]; [|eapply HP; eassumption]. rewrite (Same _ _ _ HP Eh K) in Gh. congruence. }
    assert (Old' : get b h <> None -> (gen h1 < gen h)%N).
    { intros K. destruct (get b h) as [u|] eqn:F; [|congruence]. destruct HP as [HP|[_ HP]]; [|eapply HP; eassumption].
      rewrite (Same _ _ _ HP Eh F) in Gh. congruence. }
    destruct o; cbn [astep] in *.
    - destruct (insert_spec b v0 Hb) as (b' & h' & Hi & _ & Hg & Hg' & _ & Hget & _). rewrite Hi in *. cbn [fst] in *.
      destruct D as [_ D]. rewrite Hget in Gh. destruct (index_eqb_spec h' h) as [<-|_]; [rewrite Hg, <- Hg'; exact D|apply Old, Gh].
    - apply Old, Gh.
    - destruct (set b h0 v0) as [b'|] eqn:Es; cbn [fst] in *; [|apply Old, Gh]. pose proof (set_get _ _ _ _ h Hb Es) as Q. rewrite Gh in Q.
      apply Old'. destruct (index_eqb_spec h0 h) as [<-|_]; [|congruence]. intros F. apply (set_none b h0 v0) in F. congruence.
    - destruct (aremove b h0) as [b' r] eqn:Er. cbn [fst] in *. pose proof (remove_get b h0 h Hb) as Q. rewrite Er in Q. cbn [fst] in Q.
      rewrite Gh in Q. destruct (index_eqb h0 h); [discriminate|]. apply Old. congruence.
    - apply Old, Gh.
    - cbn [fst] in Gh. apply Old. rewrite <- Gh. symmetry. apply reserve_get.
    - apply Old, Gh.
    - apply Old, Gh.
    - apply Old, Gh.
    - apply Old, Gh. }
  assert (HP : P (afinal a os2)).
  { clear G2. assert (P0 : P a) by (left; congruence). clear G1. revert a Ha P0. induction os2 as [|o os IH]; intros a Ha P0; cbn [afinal]; [exact P0|].
    inversion H2; subst. apply IH; [assumption|apply astep_inv; assumption|apply St; assumption]. }
  right. split; [exact Ei|]. destruct HP as [HP|[_ HP]]; [|eapply HP; [symmetry; exact Ei|exact G2]].
  destruct Ne. symmetry. eapply Same; [exact HP|symmetry; exact Ei|exact G2].
Qed.
Print Assumptions C65_a_reused_slot_has_a_greater_handle.

(** Across slots it says nothing about age: a handle handed out later can come before. *)
Theorem C65_handle_order_is_age_order_refuted :
  exists (os : list (aop nat)) g h1 h2, Forall aop_ok os /\
    arun (with_capacity 4) os = [ArenaSpec.OHandle g; ArenaSpec.OHandle h1; OVal (Some 10); ArenaSpec.OHandle h2] /\
    before OHandle h2 h1.
Proof.
  exists [AInsert 10; AInsert 20; ARemove (mkIndex 0 0%N); AInsert 30], (mkIndex 0 0%N), (mkIndex 1 0%N), (mkIndex 0 1%N).
  split; [repeat constructor|]. split; [reflexivity|]. left. cbn. lia.
Qed.
Print Assumptions C65_handle_order_is_age_order_refuted.

(** Arithmetic on times respects their order: adding or subtracting the same ticks keeps
    it, subtracting from the same ticks turns it around; ticks of the same sign move a
    time only in their direction. *)
Theorem C65_time_arithmetic_keeps_the_order :
  forall a b c : ticks,
    ~ before OTicks b a ->
    ~ before OTicks (ticks_add b c) (ticks_add a c) /\ ~ before OTicks (ticks_add c b) (ticks_add c a) /\
    ~ before OTicks (ticks_sub b c) (ticks_sub a c) /\ ~ before OTicks (ticks_sub c a) (ticks_sub c b) /\
    ~ (as_millis b < as_millis a)%Z /\ ~ (as_secs b < as_secs a)%Z /\
    (in_i32 a -> (0 <= c)%Z -> ~ before OTicks (ticks_add a c) a /\ ~ before OTicks a (ticks_sub a c)).
Proof.
  intros a b c. unfold before, ticks_add, ticks_sub, sat_i32, as_millis, as_secs, in_i32, i32_min, i32_max, ticks in *. intros H.
  rewrite !Z.shiftr_div_pow2 by lia. pose proof (Z.div_le_mono a b (2 ^ 10)). repeat split; lia.
Qed.
Print Assumptions C65_time_arithmetic_keeps_the_order.

(** Strictly, as long as nothing saturates; at the ends of the range different times
    become equal. *)
Theorem C65_time_arithmetic_is_strict_in_range :
  forall a b c : ticks, before OTicks a b ->
    (in_i32 (a + c) -> in_i32 (b + c) -> before OTicks (ticks_add a c) (ticks_add b c)) /\
    (in_i32 (a - c) -> in_i32 (b - c) -> before OTicks (ticks_sub a c) (ticks_sub b c)).
Proof. intros a b c. unfold before, ticks_add, ticks_sub, sat_i32, in_i32, i32_min, i32_max, ticks. lia. Qed.
Print Assumptions C65_time_arithmetic_is_strict_in_range.
Theorem C65_adding_keeps_times_apart_refuted :
  exists a b c : ticks, in_i32 a /\ in_i32 b /\ in_i32 c /\ before OTicks a b /\ ticks_add a c = ticks_add b c.
Proof. exists 2147483646%Z, 2147483647%Z, 1%Z. unfold in_i32. cbn. repeat split; try lia. Qed.
Print Assumptions C65_adding_keeps_times_apart_refuted.

(** Non-vacuity: a map of times, filled out of order, rebalanced, emptied from the front. *)
Example ordered_example :
  fst (trun (okey_cmp ORealmTime) Leaf
     [TInsert 30 "c"; TInsert 10 "a"; TInsert 20 "b"; TBalance [] false; TIter; TRange 10 30; TRange 30 10; TInsert 20 "B"; TRemove 30;
      TRemove 7; TFirst; TLast; TPopFirst; TBalance [] true; TGet 10; TIter]%Z) =
  [TVal None; TVal None; TVal None; TNone; TList [(10, "a"); (20, "b"); (30, "c")]; TList [(10, "a"); (20, "b")]; TPanics; TVal (Some "b");
   TVal (Some "c"); TVal None; TPair (Some (10, "a")); TPair (Some (20, "B")); TPair (Some (10, "a")); TNone; TVal None; TList [(20, "B")]]%Z.
Proof. vm_compute. reflexivity. Qed.
Example ordered_handles :
  t_iter (t_collect (okey_cmp OHandle) [(mkIndex 2 0%N, 3); (mkIndex 0 1%N, 1); (mkIndex 1 5%N, 2)]) =
    [(mkIndex 0 1%N, 1); (mkIndex 1 5%N, 2); (mkIndex 2 0%N, 3)] /\
  binary_search (okey_cmp OHandle) [mkIndex 0 1%N; mkIndex 1 5%N; mkIndex 2 0%N] (mkIndex 1 5%N) = inl 1 /\
  binary_search (okey_cmp OHandle) [mkIndex 0 1%N; mkIndex 1 5%N; mkIndex 2 0%N] (mkIndex 1 4%N) = inr 1.
Proof. vm_compute. auto. Qed.
(** A reused slot: the hypotheses of the theorem above hold of real histories. *)
Example reused_slot :
  get (afinal (with_capacity 4) [AInsert 10]) (mkIndex 0 0%N) = Some 10 /\
  get (afinal (with_capacity 4) ([AInsert 10] ++ [ARemove (mkIndex 0 0%N); AInsert 30])) (mkIndex 0 1%N) = Some 30.
Proof. split; reflexivity. Qed.
