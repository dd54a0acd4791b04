(** Proofs about the managed wrappers' memory contract. *)
From Verif Require Export ManagedSpec.
From Coq Require Import List Bool Arith Lia.
Import ListNotations.

(** ** Lists *)
Lemma nth_combine_seq {A} (l : list A) s j :
  nth_error (combine (seq s (length l)) l) j = option_map (fun x => (s + j, x)) (nth_error l j).
Proof.
  revert s j. induction l as [|x l IH]; intros s [|j]; cbn; auto.
  - rewrite Nat.add_0_r. reflexivity.
  - rewrite IH. destruct (nth_error l j); cbn; auto. do 2 f_equal. lia.
Qed.
Lemma nth_set_nth {A} (l : list A) i f j :
  nth_error (set_nth l i f) j = if j =? i then option_map f (nth_error l j) else nth_error l j.
Proof.
  unfold set_nth. rewrite nth_error_map, nth_combine_seq. destruct (nth_error l j); cbn; destruct (j =? i); auto.
Qed.
Lemma length_set_nth {A} (l : list A) i f : length (set_nth l i f) = length l.
Proof. unfold set_nth. rewrite map_length, combine_length, seq_length. lia. Qed.
Lemma nth_stale r bk j :
  nth_error (stale r bk) j =
  option_map (fun v => if (no_root v =? r) && negb (j =? r) then mkNote (no_root v) (no_inside v) false else v) (nth_error bk j).
Proof. unfold stale. rewrite nth_error_map, nth_combine_seq. destruct (nth_error bk j); reflexivity. Qed.
Lemma length_stale r bk : length (stale r bk) = length bk.
Proof. unfold stale. rewrite map_length, combine_length, seq_length. lia. Qed.
Lemma nth_stale_inside r bk j :
  nth_error (stale_inside r bk) j =
  option_map (fun v => if (no_root v =? r) && no_inside v then mkNote (no_root v) true false else v) (nth_error bk j).
Proof. apply nth_error_map. Qed.
Lemma nth_snoc {A} (l : list A) x i :
  nth_error (l ++ [x]) i = if i =? length l then Some x else nth_error l i.
Proof.
  destruct (Nat.eqb_spec i (length l)) as [->|N].
  - rewrite nth_error_app2, Nat.sub_diag by lia. reflexivity.
  - destruct (lt_dec i (length l)) as [H|H].
    + apply nth_error_app1. exact H.
    + transitivity (@None A); [|symmetry]; apply nth_error_None; rewrite ?app_length; cbn; lia.
Qed.
Lemma nth_len {A} (l : list A) i x : nth_error l i = Some x -> i < length l.
Proof. intros H. apply nth_error_Some. congruence. Qed.
Lemma class_eqb_refl c : class_eqb c c = true.
Proof. unfold class_eqb. destruct (class_eq_dec c c); congruence. Qed.
Lemma fits_refl c : fits c c = true.
Proof. unfold fits. rewrite class_eqb_refl. reflexivity. Qed.

(** ** The invariant.  [fl] are the boxes in flight: moved out of their wrapper and
    not yet received by the native side. *)
Definition owns (w : world) (i n : nat) : Prop :=
  exists r, nth_error (wrs w) i = Some r /\ wr_own r = Owned /\ wr_inner r = Some (Whole n).
Record inv (w : world) (bk : book) (fl : list nat) : Prop := mkInv {
  iv_len : length bk = length (wrs w);
  iv_own : forall i r, nth_error (wrs w) i = Some r -> wr_own r = Owned ->
    nth_error bk i = Some (mkNote i false true) /\ native_drop (wr_class r) <> DropThrows /\
    forall p, wr_inner r = Some p ->
      exists n k, p = Whole n /\ nth_error (heap w) n = Some k /\ ce_live k = true /\ ce_class k = wr_class r;
  iv_dist : forall i j n, owns w i n -> owns w j n -> i = j;
  iv_view : forall i r v, nth_error (wrs w) i = Some r -> wr_own r <> Owned -> nth_error bk i = Some v ->
    (exists rr, nth_error (wrs w) (no_root v) = Some rr /\ wr_own rr = Owned) /\
    (no_fresh v = true -> forall p, wr_inner r = Some p ->
      exists n k, owns w (no_root v) n /\ nth_error (heap w) n = Some k /\
        if no_inside v then p = Inside n (ce_epoch k) (wr_class r) else p = Whole n /\ ce_class k = wr_class r);
  iv_fl : forall n, In n fl -> exists k, nth_error (heap w) n = Some k /\ ce_live k = true /\ forall i, ~ owns w i n;
  iv_fl_nodup : NoDup fl;
  iv_leak : forall n k, nth_error (heap w) n = Some k -> ce_live k = true -> ce_class k <> CVec ->
    In n fl \/ exists i, owns w i n }.

Lemma inv_empty : inv empty_world [] [].
Proof.
  constructor; cbn.
  - reflexivity.
  - intros [|] ? E; discriminate E.
  - intros i j n (r & E & _); destruct i; discriminate E.
  - intros [|] ? ? E; discriminate E.
  - contradiction.
  - constructor.
  - intros [|] ? E; discriminate E.
Qed.

(** Marking more wrappers unusable never breaks the invariant. *)
Lemma inv_stale w bk fl r : inv w bk fl -> inv w (stale r bk) fl.
Proof.
  intros I. destruct I as [L O D V F N K]. constructor; auto.
  - rewrite length_stale. auto.
  - intros i q E Ow. destruct (O i q E Ow) as (B & T & P). rewrite nth_stale, B. cbn. split; auto.
    destruct (Nat.eqb_spec i r) as [->|]; cbn; auto.
  - intros i q v E Ow B. rewrite nth_stale in B. destruct (nth_error bk i) as [v0|] eqn:B0; cbn in B; [|discriminate].
    destruct (V i q v0 E Ow B0) as (R & P).
    destruct ((no_root v0 =? r) && negb (i =? r)); injection B as <-; cbn; auto. split; auto. discriminate.
Qed.
Lemma inv_stale_all l : forall w bk fl, inv w bk fl -> inv w (fold_left (fun b i => stale i b) l bk) fl.
Proof. induction l as [|r l IH]; intros w bk fl I; cbn; auto. apply IH, inv_stale, I. Qed.

(** [StealInner] on an owner: the box is in flight. *)
Lemma owns_steal w a i n :
  owns (mkWorld (heap w) (set_nth (wrs w) a null_inner)) i n <-> owns w i n /\ i <> a.
Proof.
  unfold owns. cbn [wrs]. setoid_rewrite nth_set_nth. destruct (Nat.eqb_spec i a) as [->|Ne].
  - split; [|intros [_ C]; congruence]. intros (r & E & Ow & P).
    destruct (nth_error (wrs w) a) as [q|]; cbn in E; [|discriminate]. injection E as <-. discriminate P.
  - split; intros H; [split; auto|apply H].
Qed.
Lemma inv_steal w bk fl a n : inv w bk fl -> owns w a n ->
  inv (mkWorld (heap w) (set_nth (wrs w) a null_inner)) (stale a bk) (n :: fl).
Proof.
  intros I (ra & Ea & Oa & Pa). pose proof I as [L O D V F N K].
  assert (OA : owns w a n) by (exists ra; auto).
  constructor; cbn [heap wrs].
  - rewrite length_stale, length_set_nth. auto.
  - intros i q E Ow. rewrite nth_set_nth in E.
    destruct (Nat.eqb_spec i a) as [->|Ne].
    + rewrite Ea in E. cbn in E. injection E as <-. cbn in *. destruct (O a ra Ea Oa) as (B & T & P).
      rewrite nth_stale, B. cbn. rewrite Nat.eqb_refl. cbn. split; auto. split; auto. discriminate.
    + destruct (O i q E Ow) as (B & T & P). rewrite nth_stale, B. cbn.
      destruct (Nat.eqb_spec i a); [congruence|]. auto.
  - intros i j m Hi Hj. apply owns_steal in Hi, Hj. apply (D i j m); tauto.
  - intros i q v E Ow B. rewrite nth_stale in B. destruct (nth_error bk i) as [v0|] eqn:B0; cbn in B; [|discriminate].
    rewrite nth_set_nth in E. assert (Ne : i <> a).
    { intros ->. rewrite Nat.eqb_refl, Ea in E. cbn in E. injection E as <-. cbn in Ow. congruence. }
    destruct (Nat.eqb_spec i a); [congruence|]. cbn [negb] in B. rewrite andb_true_r in B.
    destruct (V i q v0 E Ow B0) as (R & P).
    assert (R' : exists rr, nth_error (set_nth (wrs w) a null_inner) (no_root v0) = Some rr /\ wr_own rr = Owned).
    { destruct R as (rr & Er & Or). rewrite nth_set_nth, Er. destruct (no_root v0 =? a); cbn; eexists; split; auto. }
    destruct (Nat.eqb_spec (no_root v0) a); injection B as <-; cbn; split; auto; [discriminate|].
    intros Fr p Hp. destruct (P Fr p Hp) as (m & k & Hm & Ek & Sh). exists m, k.
    split; [apply owns_steal; auto|]. auto.
  - intros m [<-|Hm].
    + destruct (O a ra Ea Oa) as (_ & _ & P). destruct (P _ Pa) as (n' & k & Q & Ek & Lv & _). injection Q as <-.
      exists k. split; auto. split; auto. intros i Hi. apply owns_steal in Hi. destruct Hi as [Hi Ne].
      apply Ne, (D i a n); auto.
    + destruct (F m Hm) as (k & Ek & Lv & No). exists k. split; auto. split; auto.
      intros i Hi. apply owns_steal in Hi. apply (No i). tauto.
  - constructor; auto. intros Hn. destruct (F n Hn) as (_ & _ & _ & No). apply (No a OA).
  - intros m k Ek Lv Nv. destruct (K m k Ek Lv Nv) as [Hm|(i & Hi)]; [left; right; auto|].
    destruct (Nat.eq_dec i a) as [->|Ne].
    + left. left. destruct Hi as (r & E & _ & P). rewrite Ea in E. injection E as <-. congruence.
    + right. exists i. apply owns_steal. auto.
Qed.
(** A wrapper that owns nothing is forgotten. *)
Lemma inv_null w bk fl a ra : inv w bk fl -> nth_error (wrs w) a = Some ra -> (wr_own ra <> Owned \/ wr_inner ra = None) ->
  inv (mkWorld (heap w) (set_nth (wrs w) a null_inner)) bk fl.
Proof.
  intros I Ea Na. pose proof I as [L O D V F N K].
  assert (EQ : forall i n, owns (mkWorld (heap w) (set_nth (wrs w) a null_inner)) i n <-> owns w i n).
  { intros i n. rewrite owns_steal. split; [tauto|]. intros H. split; auto. intros ->.
    destruct H as (r & E & Ow & P). rewrite Ea in E. injection E as <-. destruct Na; congruence. }
  assert (EN : forall i q, nth_error (set_nth (wrs w) a null_inner) i = Some q ->
    exists q0, nth_error (wrs w) i = Some q0 /\ wr_own q = wr_own q0 /\ wr_class q = wr_class q0 /\ (wr_inner q = wr_inner q0 \/ wr_inner q = None)).
  { intros i q E. rewrite nth_set_nth in E. destruct (i =? a); [|exists q; auto].
    destruct (nth_error (wrs w) i) as [q0|]; cbn in E; [|discriminate]. injection E as <-. exists q0. auto. }
  constructor; cbn [heap wrs].
  - rewrite length_set_nth. auto.
  - intros i q E Ow. destruct (EN i q E) as (q0 & E0 & -> & -> & P0) || destruct (EN i q E) as (q0 & E0 & Q1 & Q2 & P0).
    rewrite Q1 in Ow. rewrite Q2. destruct (O i q0 E0 Ow) as (B & T & P). split; auto. split; auto.
    intros p Hp. apply P. destruct P0; congruence.
  - intros i j n Hi Hj. apply (D i j n); apply EQ; auto.
  - intros i q v E Ow B. destruct (EN i q E) as (q0 & E0 & Q1 & Q2 & P0). rewrite Q1 in Ow. rewrite Q2.
    destruct (V i q0 v E0 Ow B) as ((rr & Er & Or) & P). split.
    + rewrite nth_set_nth, Er. destruct (no_root v =? a); cbn; eexists; split; auto.
    + intros Fr p Hp. destruct (P Fr p) as (n & k & Hn & Ek & Sh); [destruct P0; congruence|].
      exists n, k. split; [apply EQ; auto|]. auto.
  - intros n Hn. destruct (F n Hn) as (k & Ek & Lv & No). exists k. split; auto. split; auto. intros i Hi. apply (No i), EQ, Hi.
  - auto.
  - intros n k Ek Lv Nv. destruct (K n k Ek Lv Nv) as [Hm|(i & Hi)]; auto. right. exists i. apply EQ. auto.
Qed.
(** The native side receives a box in flight. *)
Definition kill (h : list cell) (n : nat) : list cell := set_nth h n (fun k => mkCell (ce_class k) false (ce_epoch k)).
Lemma owns_heap w h i n : owns (mkWorld h (wrs w)) i n <-> owns w i n.
Proof. reflexivity. Qed.
Lemma inv_take w bk fl n : inv w bk (n :: fl) -> inv (mkWorld (kill (heap w) n) (wrs w)) bk fl.
Proof.
  intros I. pose proof I as [L O D V F N K]. inversion N; subst.
  destruct (F n (or_introl eq_refl)) as (kn & En & Ln & No).
  assert (H : forall m, m <> n -> nth_error (kill (heap w) n) m = nth_error (heap w) m).
  { intros m Hm. unfold kill. rewrite nth_set_nth. destruct (Nat.eqb_spec m n); [contradiction|auto]. }
  constructor; cbn [heap wrs]; auto.
  - intros i r E Ow. destruct (O i r E Ow) as (B & T & P). split; auto. split; auto. intros p Hp.
    destruct (P p Hp) as (m & k & -> & Ek & Lv & C). exists m, k. split; auto.
    rewrite H; auto. intros ->. apply (No i). exists r; auto.
  - intros i r v E Ow B. destruct (V i r v E Ow B) as (R & P). split; auto. intros Fr p Hp.
    destruct (P Fr p Hp) as (m & k & Hm & Ek & Sh). exists m, k. split; auto. rewrite H; auto.
    intros ->. apply (No _ Hm).
  - intros m Hm. destruct (F m (or_intror Hm)) as (k & Ek & Lv & Nm). exists k. rewrite H; auto. intros ->. contradiction.
  - intros m k Ek Lv Nv. destruct (Nat.eq_dec m n) as [->|Nm].
    + unfold kill in Ek. rewrite nth_set_nth, Nat.eqb_refl, En in Ek. cbn in Ek. injection Ek as <-. discriminate Lv.
    + rewrite H in Ek by auto. destruct (K m k Ek Lv Nv) as [[C|Hm]|X]; [congruence|auto|auto].
Qed.
(** A vector in flight is forgotten: it leaks. *)
Lemma inv_leak_vec w bk fl n k : inv w bk (n :: fl) -> nth_error (heap w) n = Some k -> ce_class k = CVec -> inv w bk fl.
Proof.
  intros I Ek C. pose proof I as [L O D V F N K]. inversion N; subst. constructor; auto.
  - intros m Hm. apply F. right. auto.
  - intros m k' Em Lv Nv. destruct (K m k' Em Lv Nv) as [[<-|Hm]|X]; [congruence|auto|auto].
Qed.
(** The contents of an owner's box move. *)
Lemma inv_bump w bk fl r n : inv w bk fl -> owns w r n -> inv (mkWorld (bump (heap w) n) (wrs w)) (stale_inside r bk) fl.
Proof.
  intros I Hr. pose proof I as [L O D V F N K].
  assert (H : forall m k, nth_error (heap w) m = Some k -> exists k', nth_error (bump (heap w) n) m = Some k' /\
            ce_class k' = ce_class k /\ ce_live k' = ce_live k /\ (m <> n -> k' = k)).
  { intros m k E. unfold bump. rewrite nth_set_nth, E. destruct (Nat.eqb_spec m n); cbn; eexists; repeat split; auto. contradiction. }
  assert (H' : forall m k', nth_error (bump (heap w) n) m = Some k' -> exists k, nth_error (heap w) m = Some k /\
            ce_class k' = ce_class k /\ ce_live k' = ce_live k).
  { intros m k' E. unfold bump in E. rewrite nth_set_nth in E. destruct (nth_error (heap w) m) as [k|] eqn:E0.
    - exists k. destruct (m =? n); cbn in E; injection E as <-; auto.
    - destruct (m =? n); discriminate. }
  constructor; cbn [heap wrs]; auto.
  - unfold stale_inside. rewrite map_length. auto.
  - intros i q E Ow. destruct (O i q E Ow) as (B & T & P). rewrite nth_stale_inside, B. cbn. rewrite andb_false_r.
    split; auto. split; auto. intros p Hp. destruct (P p Hp) as (m & k & -> & Ek & Lv & C).
    destruct (H m k Ek) as (k' & Ek' & C' & L' & _). exists m, k'. repeat split; auto; congruence.
  - intros i q v E Ow B. rewrite nth_stale_inside in B. destruct (nth_error bk i) as [v0|] eqn:B0; cbn in B; [|discriminate].
    destruct (V i q v0 E Ow B0) as (R & P).
    destruct ((no_root v0 =? r) && no_inside v0) eqn:S; injection B as <-; cbn; split; auto; [discriminate|].
    intros Fr p Hp. destruct (P Fr p Hp) as (m & k & Hm & Ek & Sh).
    destruct (H m k Ek) as (k' & Ek' & C' & L' & Q). exists m, k'. split; auto. split; auto.
    destruct (no_inside v0); [|destruct Sh; split; congruence].
    rewrite Q; auto. intros ->. assert (no_root v0 = r) by (apply (D _ _ n); auto).
    rewrite H0, Nat.eqb_refl in S. discriminate.
  - intros m Hm. destruct (F m Hm) as (k & Ek & Lv & No). destruct (H m k Ek) as (k' & Ek' & C' & L' & _).
    exists k'. repeat split; auto. congruence.
  - intros m k' Ek' Lv Nv. destruct (H' m k' Ek') as (k & Ek & C' & L'). apply (K m k); congruence.
Qed.
Lemma inv_stale_inside w bk fl r : inv w bk fl -> inv w (stale_inside r bk) fl.
Proof.
  intros I. destruct I as [L O D V F N K]. constructor; auto.
  - unfold stale_inside. rewrite map_length. auto.
  - intros i q E Ow. destruct (O i q E Ow) as (B & T & P). rewrite nth_stale_inside, B. cbn. rewrite andb_false_r. auto.
  - intros i q v E Ow B. rewrite nth_stale_inside in B. destruct (nth_error bk i) as [v0|] eqn:B0; cbn in B; [|discriminate].
    destruct (V i q v0 E Ow B0) as (R & P).
    destruct ((no_root v0 =? r) && no_inside v0); injection B as <-; cbn; auto. split; auto. discriminate.
Qed.

(** New wrappers. *)
Lemma inv_new w bk fl c : inv w bk fl -> native_drop c <> DropThrows ->
  inv (mkWorld (heap w ++ [mkCell c true 0]) (wrs w ++ [mkWr c (Some (Whole (length (heap w)))) Owned]))
      (bk ++ [mkNote (length bk) false true]) fl.
Proof.
  intros I T. pose proof I as [L O D V F N K].
  set (w' := mkWorld _ _).
  assert (OW : forall i n, owns w' i n <-> owns w i n \/ (i = length (wrs w) /\ n = length (heap w))).
  { intros i n. unfold owns, w'. cbn [wrs]. setoid_rewrite nth_snoc. destruct (Nat.eqb_spec i (length (wrs w))) as [->|Ne].
    - split.
      + intros (r & E & _ & P). injection E as <-. cbn in P. injection P as <-. auto.
      + intros [(r & E & _)|[_ ->]]; [apply nth_len in E; lia|]. eexists. split; eauto.
    - split; [auto|]. intros [H|[H _]]; [auto|contradiction]. }
  assert (HP : forall m k, nth_error (heap w) m = Some k -> nth_error (heap w') m = Some k).
  { intros m k E. unfold w'. cbn [heap]. rewrite nth_snoc. pose proof (nth_len _ _ _ E). destruct (Nat.eqb_spec m (length (heap w))); [lia|auto]. }
  assert (BP : forall m k, nth_error bk m = Some k -> nth_error (bk ++ [mkNote (length bk) false true]) m = Some k).
  { intros m k E. rewrite nth_snoc. pose proof (nth_len _ _ _ E). destruct (Nat.eqb_spec m (length bk)); [lia|auto]. }
  assert (OB : forall i n, owns w i n -> n < length (heap w)).
  { intros i n (r & E & Ow & P). destruct (O i r E Ow) as (_ & _ & Q). destruct (Q _ P) as (n' & k & Q1 & Ek & _).
    injection Q1 as <-. apply (nth_len _ _ _ Ek). }
  constructor.
  - unfold w'. cbn [wrs]. rewrite !app_length. cbn. lia.
  - intros i r E Ow. unfold w' in E. cbn [wrs] in E. rewrite nth_snoc in E.
    destruct (Nat.eqb_spec i (length (wrs w))) as [->|Ne].
    + injection E as <-. cbn. split; [rewrite nth_snoc, L, Nat.eqb_refl; reflexivity|]. split; auto.
      intros p Q. injection Q as <-. exists (length (heap w)), (mkCell c true 0). split; auto.
      split; [|auto]. unfold w'. cbn [heap]. rewrite nth_snoc, Nat.eqb_refl. reflexivity.
    + destruct (O i r E Ow) as (B & T' & P). split; auto. split; auto. intros p Hp.
      destruct (P p Hp) as (m & k & -> & Ek & Lv & C). exists m, k. auto.
  - intros i j n Hi Hj. apply OW in Hi, Hj. destruct Hi as [Hi|[-> ->]], Hj as [Hj|[-> Hj]]; auto.
    + apply (D i j n); auto.
    + subst n. apply OB in Hi. lia.
    + apply OB in Hj. lia.
  - intros i r v E Ow B. unfold w' in E. cbn [wrs] in E. rewrite nth_snoc in E.
    destruct (Nat.eqb_spec i (length (wrs w))) as [->|Ne]; [injection E as <-; cbn in Ow; congruence|].
    rewrite nth_snoc in B. destruct (Nat.eqb_spec i (length bk)); [congruence|].
    destruct (V i r v E Ow B) as ((rr & Er & Or) & P). split.
    + exists rr. split; auto. unfold w'. cbn [wrs]. rewrite nth_snoc. pose proof (nth_len _ _ _ Er).
      destruct (Nat.eqb_spec (no_root v) (length (wrs w))); [lia|auto].
    + intros Fr p Hp. destruct (P Fr p Hp) as (m & k & Hm & Ek & Sh). exists m, k. split; [apply OW; auto|]. auto.
  - intros m Hm. destruct (F m Hm) as (k & Ek & Lv & No). exists k. split; auto. split; auto.
    intros i Hi. apply OW in Hi. destruct Hi as [Hi|[_ ->]]; [apply (No i Hi)|]. apply nth_len in Ek. lia.
  - auto.
  - intros m k Ek Lv Nv. unfold w' in Ek. cbn [heap] in Ek. rewrite nth_snoc in Ek.
    destruct (Nat.eqb_spec m (length (heap w))) as [->|Ne].
    + right. exists (length (wrs w)). apply OW. auto.
    + destruct (K m k Ek Lv Nv) as [Hm|(i & Hi)]; auto. right. exists i. apply OW. auto.
Qed.
(** A view into the box of owner [r]. *)
Lemma inv_view w bk fl r c o p ins fr : inv w bk fl -> o <> Owned ->
  (exists rr, nth_error (wrs w) r = Some rr /\ wr_own rr = Owned) ->
  (fr = true -> exists n k, owns w r n /\ nth_error (heap w) n = Some k /\
     if ins : bool then p = Inside n (ce_epoch k) c else p = Whole n /\ ce_class k = c) ->
  inv (mkWorld (heap w) (wrs w ++ [mkWr c (Some p) o])) (bk ++ [mkNote r ins fr]) fl.
Proof.
  intros I No (rr & Er & Or) H. pose proof I as [L O D V F N K].
  set (w' := mkWorld _ _).
  assert (OW : forall i n, owns w' i n <-> owns w i n).
  { intros i n. unfold owns, w'. cbn [wrs]. setoid_rewrite nth_snoc. destruct (Nat.eqb_spec i (length (wrs w))) as [->|Ne]; [|reflexivity].
    split; intros (q & E & Ow & _).
    - injection E as <-. cbn in Ow. contradiction.
    - apply nth_len in E. lia. }
  assert (ER : forall i q, nth_error (wrs w) i = Some q -> nth_error (wrs w') i = Some q).
  { intros i q E. unfold w'. cbn [wrs]. rewrite nth_snoc. pose proof (nth_len _ _ _ E). destruct (Nat.eqb_spec i (length (wrs w))); [lia|auto]. }
  constructor.
  - unfold w'. cbn [wrs]. rewrite !app_length. cbn. lia.
  - intros i q E Ow. unfold w' in E. cbn [wrs] in E. rewrite nth_snoc in E.
    destruct (Nat.eqb_spec i (length (wrs w))) as [->|Ne]; [injection E as <-; cbn in Ow; contradiction|].
    destruct (O i q E Ow) as (B & T & P). split; auto. rewrite nth_snoc. destruct (Nat.eqb_spec i (length bk)); [congruence|auto].
  - intros i j n Hi Hj. apply OW in Hi, Hj. eauto.
  - intros i q v E Ow B. unfold w' in E. cbn [wrs] in E. rewrite nth_snoc in E. rewrite nth_snoc, L in B.
    destruct (Nat.eqb_spec i (length (wrs w))) as [->|Ne].
    + injection E as <-. injection B as <-. cbn. split; [exists rr; split; auto|].
      intros Fr p' Hp. injection Hp as <-. destruct (H Fr) as (n & k & Hn & Ek & Sh). exists n, k.
      split; [apply OW; auto|]. auto.
    + destruct (V i q v E Ow B) as ((rr' & Er' & Or') & P). split; [exists rr'; split; auto|].
      intros Fr p' Hp. destruct (P Fr p' Hp) as (n & k & Hn & Ek & Sh). exists n, k. split; [apply OW; auto|]. auto.
  - intros n Hn. destruct (F n Hn) as (k & Ek & Lv & Nn). exists k. split; auto. split; auto. intros i Hi. apply (Nn i), OW, Hi.
  - auto.
  - intros n k Ek Lv Nv. destruct (K n k Ek Lv Nv) as [Hn|(i & Hi)]; auto. right. exists i. apply OW. auto.
Qed.

(** ** Dispose *)
Lemma native_take_ok h n k c : nth_error h n = Some k -> ce_live k = true -> ce_class k = c ->
  native_take h (Whole n) c = inl (kill h n).
Proof. intros E L C. unfold native_take. rewrite E, L, C, fits_refl. reflexivity. Qed.
Definition others_kept (w w' : world) (i : nat) : Prop :=
  forall j, j <> i -> nth_error (wrs w') j = nth_error (wrs w) j.
Lemma dispose_inv w bk fl i : inv w bk fl -> i < length (wrs w) ->
  exists w', dispose w i = Done w' /\ inv w' (stale i bk) fl /\ wrs w' = set_nth (wrs w) i null_inner.
Proof.
  intros I Hi. destruct (nth_error (wrs w) i) as [r|] eqn:E; [|apply nth_error_None in E; lia].
  unfold dispose. rewrite E.
  assert (NV : wr_own r <> Owned \/ wr_inner r = None ->
    exists w', Done (mkWorld (heap w) (set_nth (wrs w) i null_inner)) = Done w' /\ inv w' (stale i bk) fl /\ wrs w' = set_nth (wrs w) i null_inner).
  { intros H. eexists. split; [reflexivity|]. split; [|reflexivity]. apply inv_stale. eapply inv_null; eauto. }
  destruct (wr_own r) eqn:Ow; [|apply NV; left; congruence|apply NV; left; congruence].
  destruct (wr_inner r) as [p|] eqn:P; [|apply NV; auto].
  destruct (iv_own _ _ _ I i r E Ow) as (B & T & Q). destruct (Q p P) as (n & k & -> & Ek & Lv & C).
  assert (OW : owns w i n) by (exists r; auto). pose proof (inv_steal w bk fl i n I OW) as I1.
  destruct (native_drop (wr_class r)) eqn:DK; [| |contradiction].
  - rewrite (native_take_ok _ _ _ _ Ek Lv C). eexists. split; [reflexivity|]. split; [|reflexivity].
    apply (inv_take _ _ _ _ I1).
  - eexists. split; [reflexivity|]. split; [|reflexivity]. apply (inv_leak_vec _ _ _ n k I1); auto.
    rewrite C. destruct (wr_class r); try discriminate DK; auto.
Qed.
Lemma dispose_out w i : ~ i < length (wrs w) -> dispose w i = Throw w.
Proof. intros H. unfold dispose. destruct (nth_error (wrs w) i) eqn:E; auto. apply nth_len in E. lia. Qed.
Lemma finalize_inv l : forall w bk fl, inv w bk fl ->
  exists w', finalize w l = Done w' /\ inv w' (fold_left (fun b i => stale i b) l bk) fl /\
    forall j, ~ In j l -> nth_error (wrs w') j = nth_error (wrs w) j.
Proof.
  induction l as [|i l IH]; intros w bk fl I; cbn; [exists w; auto|].
  destruct (lt_dec i (length (wrs w))) as [Hi|Hi].
  - destruct (dispose_inv w bk fl i I Hi) as (w1 & -> & I1 & W1). destruct (IH w1 _ fl I1) as (w' & -> & I' & S).
    exists w'. split; auto. split; auto. intros j Hj. rewrite S by tauto. rewrite W1, nth_set_nth.
    destruct (Nat.eqb_spec j i); [subst; tauto|auto].
  - rewrite dispose_out by auto. destruct (IH w _ fl (inv_stale _ _ _ i I)) as (w' & -> & I' & S).
    exists w'. split; [auto|]. split; [auto|]. intros j Hj. apply S. tauto.
Qed.

(** ** Calls *)
Definition plain (p : param) : Prop := pa_mode p = Borrow /\ pa_passed p = pa_class p /\ pa_native p = pa_class p.
Lemma sound_shape m : sound_method m = true -> exists ls tl,
  me_params (sig m) = ls ++ tl /\ Forall plain ls /\
  (tl = [] \/ exists p, tl = [p] /\ pa_mode p = Steal /\ pa_passed p = pa_class p /\ fits (pa_class p) (pa_native p) = true /\
                Forall (fun l => pa_class l <> pa_class p) ls) /\
  (forall k, me_moves (sig m) = Some k -> k < length ls) /\
  match me_result (sig m) with
  | RNone => True
  | RNew c => native_drop c <> DropThrows
  | RView k c o => k < length ls /\ o <> Owned
  end.
Proof.
  intros S.
  pose (ps := me_params (sig m)).
  pose (n := length (filter (fun p => match pa_mode p with Borrow => true | _ => false end) ps)).
  exists (firstn n ps), (skipn n ps). split; [symmetry; apply firstn_skipn|].
  subst n ps.
  destruct m; try discriminate S; try destruct v; cbn;
    (split; [repeat (apply Forall_cons; [split; [reflexivity|split; reflexivity]|]); apply Forall_nil|]);
    (split; [first [left; reflexivity
                   |right; eexists; split; [reflexivity|]; split; [reflexivity|]; split; [reflexivity|]; split; [reflexivity|];
                    repeat (apply Forall_cons; [discriminate|]); apply Forall_nil]|]);
    (split; [intros k E; try discriminate E; injection E as <-; lia|]);
    try discriminate; try exact Logic.I; split; try discriminate; lia.
Qed.

Fixpoint inners (w : world) (l : list nat) : option (list ptr) :=
  match l with
  | [] => Some []
  | a :: l => match nth_error (wrs w) a with
              | Some r => match wr_inner r, inners w l with
                          | Some q, Some qs => Some (q :: qs)
                          | _, _ => None
                          end
              | None => None
              end
  end.
Lemma eval_lend w tl at_ : forall ls as_, Forall plain ls -> length ls = length as_ ->
  (forall qs, inners w as_ = Some qs -> eval_args w (ls ++ tl) (as_ ++ at_) =
     match eval_args w tl at_ with Done (w2, qs2) => Done (w2, qs ++ qs2) | Throw x => Throw x | UB e => UB e end) /\
  (inners w as_ = None -> exists x, eval_args w (ls ++ tl) (as_ ++ at_) = Throw (fst x, snd x) /\ (fst x = w \/ exists y, eval_args w tl at_ = Throw y /\ fst x = fst y)
      \/ exists e, eval_args w (ls ++ tl) (as_ ++ at_) = UB e /\ eval_args w tl at_ = UB e).
Proof.
  induction ls as [|p ls IH]; intros [|a as_] Pl Len; try discriminate Len; cbn [inners app eval_args].
  - split; [|discriminate]. intros qs E. injection E as <-. destruct (eval_args w tl at_) as [[? ?]|[? ?]|]; auto.
  - inversion Pl as [|? ? [Md _] Pl']; subst. cbn in Len. injection Len as Len. destruct (IH as_ Pl' Len) as [S N].
    destruct (nth_error (wrs w) a) as [r|]; [|split; [discriminate|]; intros _; exists (w, []); left; split; auto].
    destruct (wr_inner r) as [q|]; [|split; [discriminate|]; intros _; exists (w, []); left; split; auto].
    rewrite Md. destruct (inners w as_) as [qs0|] eqn:E0.
    + split; [|discriminate]. intros qs E. injection E as <-. rewrite (S _ eq_refl).
      destruct (eval_args w tl at_) as [[? ?]|[? ?]|]; auto.
    + split; [discriminate|]. intros _. destruct (N eq_refl) as (x & [[-> Hx]|(e & -> & He)]).
      * exists x. left. auto.
      * exists x. right. exists e. auto.
Qed.

Lemma inners_nth w : forall l qs k a, inners w l = Some qs -> nth_error l k = Some a ->
  exists q r, nth_error qs k = Some q /\ nth_error (wrs w) a = Some r /\ wr_inner r = Some q.
Proof.
  induction l as [|b l IH]; intros qs k a E N; [destruct k; discriminate|]. cbn in E.
  destruct (nth_error (wrs w) b) as [r|] eqn:Eb; [|discriminate]. destruct (wr_inner r) as [q|] eqn:Eq; [|discriminate].
  destruct (inners w l) as [qs0|] eqn:E0; [|discriminate]. injection E as <-.
  destruct k as [|k]; cbn in *; [injection N as ->; exists q, r; auto|]. eapply IH; eauto.
Qed.
Lemma inners_length w : forall l qs, inners w l = Some qs -> length qs = length l.
Proof.
  induction l as [|b l IH]; intros qs E; cbn in E; [injection E as <-; reflexivity|].
  destruct (nth_error (wrs w) b); [|discriminate]. destruct (wr_inner w0); [|discriminate].
  destruct (inners w l) eqn:E0; [|discriminate]. injection E as <-. cbn. f_equal. auto.
Qed.

(** A lent argument that may still be used is sound for the native side. *)
Lemma lent_ok w bk fl a r q : inv w bk fl -> nth_error (wrs w) a = Some r -> fresh bk a = true -> wr_inner r = Some q ->
  exists n k, owns w (root bk a) n /\ nth_error (heap w) n = Some k /\ cell_of q = n /\ native_borrow (heap w) q (wr_class r) = None.
Proof.
  intros I E Fr P.
  assert (X : exists v, nth_error bk a = Some v /\ no_fresh v = true /\ root bk a = no_root v).
  { unfold fresh, root in *. destruct (nth_error bk a) as [v|]; [|discriminate]. exists v. auto. }
  destruct X as (v & B & Fv & ->).
  assert (LV : forall i n, owns w i n -> exists k, nth_error (heap w) n = Some k /\ ce_live k = true).
  { intros i n (ri & Ei & Oi & Pi). destruct (iv_own _ _ _ I i ri Ei Oi) as (_ & _ & Q). destruct (Q _ Pi) as (m & k & Q1 & Ek & Lv & _).
    injection Q1 as <-. eauto. }
  destruct (wr_own r) eqn:Ow.
  1: { destruct (iv_own _ _ _ I a r E Ow) as (B' & _ & Q). rewrite B in B'. injection B' as ->. cbn.
       destruct (Q q P) as (n & k & -> & Ek & Lv & C). exists n, k. split; [exists r; auto|]. split; auto. split; auto.
       unfold native_borrow, ptr_valid, ptr_class. rewrite Ek, Lv. cbn. rewrite C, fits_refl. reflexivity. }
  all: destruct (iv_view _ _ _ I a r v E ltac:(congruence) B) as (_ & Q); destruct (Q Fv q P) as (n & k & Hn & Ek & Sh);
       exists n, k; split; [exact Hn|]; split; [exact Ek|]; destruct (LV _ _ Hn) as (k' & Ek' & Lv); rewrite Ek in Ek'; injection Ek' as <-;
       (destruct (no_inside v); [subst q|destruct Sh as [-> C]]); (split; [reflexivity|]);
       unfold native_borrow, ptr_valid, ptr_class; rewrite Ek, Lv; cbn; rewrite ?Nat.eqb_refl; cbn; rewrite ?C, ?fits_refl; reflexivity.
Qed.

Lemma root_stale s bk a : root (stale s bk) a = root bk a.
Proof. unfold root. rewrite nth_stale. destruct (nth_error bk a) as [v|]; cbn; auto. destruct (_ && _); reflexivity. Qed.
Lemma fresh_stale s bk a : fresh bk a = true -> root bk a <> s -> fresh (stale s bk) a = true.
Proof.
  unfold fresh, root. rewrite nth_stale. destruct (nth_error bk a) as [v|]; cbn; auto.
  intros Fr Ne. destruct (Nat.eqb_spec (no_root v) s); [contradiction|]. exact Fr.
Qed.
Lemma root_stale_all l : forall bk a, root (fold_left (fun b i => stale i b) l bk) a = root bk a.
Proof. induction l as [|s l IH]; intros bk a; cbn; auto. rewrite IH. apply root_stale. Qed.
Lemma fresh_stale_all l : forall bk a, fresh bk a = true -> ~ In (root bk a) l -> fresh (fold_left (fun b i => stale i b) l bk) a = true.
Proof.
  induction l as [|s l IH]; intros bk a Fr Ni; cbn; auto. apply IH.
  - apply fresh_stale; auto. intros E. apply Ni. left. auto.
  - rewrite root_stale. intros H. apply Ni. right. auto.
Qed.
Lemma length_stale_all l : forall bk, length (fold_left (fun b i => stale i b) l bk) = length bk.
Proof. induction l as [|s l IH]; intros bk; cbn; auto. rewrite IH. apply length_stale. Qed.

Lemma native_lent h tl qt : forall ls qs,
  Forall plain ls -> length qs = length ls ->
  (forall k p q, nth_error ls k = Some p -> nth_error qs k = Some q -> native_borrow h q (pa_class p) = None) ->
  native_args h (ls ++ tl) (qs ++ qt) = native_args h tl qt.
Proof.
  induction ls as [|p ls IH]; intros [|q qs] Pl Len H; try discriminate Len; auto.
  inversion Pl as [|? ? (Md & Pp & Pn) Pl']; subst. cbn [app native_args]. rewrite Pp, class_eqb_refl, Md, Pn.
  rewrite (H 0 p q eq_refl eq_refl). apply IH; auto. intros k p' q' E1 E2. apply (H (S k) p' q'); auto.
Qed.

Lemma Forall2_app_split {A B} (R : A -> B -> Prop) : forall l1 l2 l, Forall2 R (l1 ++ l2) l ->
  exists r1 r2, l = r1 ++ r2 /\ Forall2 R l1 r1 /\ Forall2 R l2 r2.
Proof. intros l1 l2 l H. apply Forall2_app_inv_l in H. destruct H as (r1 & r2 & H1 & H2 & ->). eauto. Qed.
Lemma Forall2_len {A B} (R : A -> B -> Prop) l r : Forall2 R l r -> length l = length r.
Proof. intros H. induction H; cbn; auto. Qed.
Lemma Forall2_at {A B} (R : A -> B -> Prop) l r k a b : Forall2 R l r -> nth_error l k = Some a -> nth_error r k = Some b -> R a b.
Proof. intros H. revert k. induction H; intros [|k] Ea Eb; cbn in *; try discriminate; [congruence|eauto]. Qed.

Lemma stolen_plain ls as_ : Forall plain ls -> length ls = length as_ -> stolen ls as_ = [].
Proof.
  unfold stolen. revert as_. induction ls as [|p ls IH]; intros [|a as_] Pl Len; try discriminate Len; auto.
  inversion Pl as [|? ? (Md & _) Pl']; subst. cbn [combine filter]. rewrite Md. apply IH; auto.
Qed.
Lemma combine_app {A B} (a1 a2 : list A) (b1 b2 : list B) : length a1 = length b1 ->
  combine (a1 ++ a2) (b1 ++ b2) = combine a1 b1 ++ combine a2 b2.
Proof. revert b1. induction a1 as [|x a1 IH]; intros [|y b1] L; try discriminate L; auto. cbn. f_equal. auto. Qed.
Lemma stolen_app l1 l2 r1 r2 : length l1 = length r1 -> stolen (l1 ++ l2) (r1 ++ r2) = stolen l1 r1 ++ stolen l2 r2.
Proof. intros L. unfold stolen. rewrite combine_app by auto. rewrite filter_app, map_app. reflexivity. Qed.

(** What happens after the arguments are in native hands. *)
Lemma finish_inv w bk (mv : option nat) (rs : result) as_ qs moved (ls : list param) (bk0 : book) :
  inv w bk [] ->
  (forall k a, nth_error as_ k = Some a -> k < length ls -> root bk a = root bk0 a /\ exists q n, nth_error qs k = Some q /\ cell_of q = n /\ owns w (root bk0 a) n) ->
  length as_ >= length ls ->
  (forall k, mv = Some k -> k < length ls) ->
  match rs with RNone => True | RNew c => native_drop c <> DropThrows | RView k c o => k < length ls /\ o <> Owned end ->
  let h' := match mv with
            | Some k => match nth_error qs k with Some q => if moved : bool then bump (heap w) (cell_of q) else heap w | None => heap w end
            | None => heap w end in
  let bk2 := match mv with Some k => match nth_error as_ k with Some a => stale_inside (root bk0 a) bk | None => bk end | None => bk end in
  inv (add_result (mkWorld h' (wrs w)) rs qs)
      (match rs with
       | RNone => bk2
       | RNew _ => bk2 ++ [mkNote (length bk2) false true]
       | RView k _ _ => bk2 ++ [mkNote (root bk0 (nth k as_ 0)) true true]
       end) [].
Proof.
  intros I A Len M R h' bk2.
  assert (I2 : inv (mkWorld h' (wrs w)) bk2 []).
  { subst h' bk2. destruct mv as [k|]; [|destruct w; exact I]. specialize (M k eq_refl).
    destruct (nth_error as_ k) as [a|] eqn:Ea; [|apply nth_error_None in Ea; lia].
    destruct (A k a Ea M) as (_ & q & n & -> & <- & Ho).
    destruct moved; [apply inv_bump; auto|]. apply inv_stale_inside. destruct w; exact I. }
  destruct rs as [|c|k c o]; cbn [add_result]; auto.
  - apply inv_new with (1 := I2). exact R.
  - destruct R as (Hk & No). destruct (nth_error as_ k) as [a|] eqn:Ea; [|apply nth_error_None in Ea; lia].
    destruct (A k a Ea Hk) as (_ & q & n & Eq & <- & Ho). rewrite Eq. rewrite (nth_error_nth _ _ _ Ea).
    apply (inv_view _ _ _ (root bk0 a) c o _ true true I2 No).
    + destruct Ho as (rr & Er & Or & _). exists rr. auto.
    + intros _. destruct Ho as (rr & Er & Or & Pr). cbn [heap].
      destruct (iv_own _ _ _ I2 (root bk0 a) rr Er Or) as (_ & _ & Q). destruct (Q _ Pr) as (m & k' & Q1 & Ek & _ & _).
      injection Q1 as <-. cbn [heap] in Ek. exists (cell_of q), k'. split; [exists rr; auto|]. split; auto.
      unfold epoch_at. rewrite Ek. reflexivity.
Qed.

Lemma call_inv w bk m args gc moved : inv w bk [] -> allowed w bk (Call m args gc moved) ->
  match call w (sig m) args gc moved with
  | Done w' => inv w' (noted bk (Call m args gc moved)) []
  | Throw w' => w' = w
  | UB _ => False
  end.
Proof.
  intros I (Sm & Ty & Al & Gc). destruct (sound_shape m Sm) as (ls & tl & Eps & Pl & Tl & Mv & Rs).
  cbn [noted]. unfold call. destruct (negb _); [reflexivity|].
  rewrite Eps in *. destruct (Forall2_app_split _ _ _ _ Ty) as (as_ & at_ & -> & T1 & T2).
  pose proof (Forall2_len _ _ _ T1) as Ll.
  destruct (eval_lend w tl at_ ls as_ Pl Ll) as [Ev Ev0].
  (* the last argument *)
  assert (Et : (tl = [] /\ at_ = [] /\ eval_args w tl at_ = Done (w, [])) \/
               (exists p a r, tl = [p] /\ at_ = [a] /\ nth_error (wrs w) a = Some r /\ wr_class r = pa_class p /\ wr_own r = Owned /\
                  pa_mode p = Steal /\ pa_passed p = pa_class p /\ fits (pa_class p) (pa_native p) = true /\ Forall (fun l => pa_class l <> pa_class p) ls /\
                  eval_args w tl at_ = match wr_inner r with
                                       | None => Throw (w, [])
                                       | Some q => Done (mkWorld (heap w) (set_nth (wrs w) a null_inner), [q]) end)).
  { destruct Tl as [->|(p & -> & Md & Pp & Ft & Dc)].
    - inversion T2; subst. left. auto.
    - inversion T2 as [|? a ? ? (r & Er & Cr & Or) T3]; subst. inversion T3; subst. right. rewrite Md in Or.
      exists p, a, r. repeat (split; [auto; fail|]). cbn [eval_args]. rewrite Er, Md. destruct (wr_inner r); reflexivity. }
  destruct (inners w as_) as [qs|] eqn:Ei.
  2: { destruct (Ev0 eq_refl) as (x & [[-> [->|(y & Ey & ->)]]|(e & _ & Ee)]); [reflexivity| |].
       - destruct Et as [(_ & _ & E)|(p & a & r & _ & _ & _ & _ & _ & _ & _ & _ & _ & E)]; rewrite E in Ey; [discriminate|].
         destruct (wr_inner r); [discriminate|]. injection Ey as <-. reflexivity.
       - destruct Et as [(_ & _ & E)|(p & a & r & _ & _ & _ & _ & _ & _ & _ & _ & _ & E)]; rewrite E in Ee; [discriminate|].
         destruct (wr_inner r); discriminate. }
  rewrite (Ev qs eq_refl). clear Ev Ev0. pose proof (inners_length _ _ _ Ei) as Lq.
  assert (LA : forall k a, nth_error as_ k = Some a -> exists p r, nth_error ls k = Some p /\ nth_error (wrs w) a = Some r /\ wr_class r = pa_class p /\ fresh bk a = true).
  { intros k a Ea. pose proof (nth_len _ _ _ Ea). destruct (nth_error ls k) as [p|] eqn:Ep; [|apply nth_error_None in Ep; lia].
    destruct (Forall2_at _ _ _ _ _ _ T1 Ep Ea) as (r & Er & Cr & Fr). exists p, r. split; auto. split; auto. split; auto.
    rewrite Forall_forall in Pl. destruct (Pl p (nth_error_In _ _ Ep)) as (Md & _). rewrite Md in Fr. exact Fr. }
  assert (RF : forall k a q, nth_error as_ k = Some a -> nth_error qs k = Some q -> exists r, nth_error (wrs w) a = Some r /\ wr_inner r = Some q).
  { intros k a q Ea Eq. destruct (inners_nth _ _ _ _ _ Ei Ea) as (q' & r & Eq' & Er & Pr). exists r. split; auto. congruence. }
  (* common: from a world [w1] where the lent arguments are untouched *)
  assert (GO : forall w1 bk1 fl qt, inv w1 bk1 fl ->
     (forall a, In a as_ -> nth_error (wrs w1) a = nth_error (wrs w) a /\ fresh bk1 a = true /\ root bk1 a = root bk a) ->
     (forall h w2, native_args h tl qt = inl w2 -> True) ->
     forall w2, finalize w1 gc = Done w2 -> inv w2 (fold_left (fun b i => stale i b) gc bk1) fl ->
       (forall j, ~ In j gc -> nth_error (wrs w2) j = nth_error (wrs w1) j) ->
       native_args (heap w2) (ls ++ tl) (qs ++ qt) = native_args (heap w2) tl qt /\
       forall k a, nth_error as_ k = Some a -> exists q n, nth_error qs k = Some q /\ cell_of q = n /\ owns w2 (root bk a) n).
  { intros w1 bk1 fl qt I1 U1 _ w2 Ef I2 U2.
    assert (LO : forall k a, nth_error as_ k = Some a -> exists p q n, nth_error ls k = Some p /\ nth_error qs k = Some q /\ cell_of q = n /\
              owns w2 (root bk a) n /\ native_borrow (heap w2) q (pa_class p) = None).
    { intros k a Ea. destruct (LA k a Ea) as (p & r & Ep & Er & Cr & Fr). destruct (inners_nth _ _ _ _ _ Ei Ea) as (q & r' & Eq & Er' & Pq).
      rewrite Er in Er'. injection Er' as <-. pose proof (nth_error_In _ _ Ea) as Ia.
      destruct (U1 a Ia) as (N1 & F1 & R1). destruct (Gc a) as (Ng & Nr); [apply in_or_app; auto|].
      assert (Er2 : nth_error (wrs w2) a = Some r) by (rewrite U2 by auto; congruence).
      destruct (lent_ok w2 _ fl a r q I2 Er2) as (n & k2 & Ho & _ & Hc & Hb); auto.
      - apply fresh_stale_all; auto. rewrite R1. auto.
      - rewrite root_stale_all, R1 in Ho. exists p, q, n. rewrite <- Cr. auto. }
    split.
    - apply native_lent; auto; [lia|]. intros k p q Ep Eq.
      destruct (nth_error as_ k) as [a|] eqn:Ea; [|apply nth_error_None in Ea; apply nth_len in Ep; lia].
      destruct (LO k a Ea) as (p' & q' & n & Ep' & Eq' & _ & _ & Hb). rewrite Ep in Ep'. rewrite Eq in Eq'.
      injection Ep' as <-. injection Eq' as <-. exact Hb.
    - intros k a Ea. destruct (LO k a Ea) as (p' & q' & n & Ep' & Eq' & Hc & Ho & _). exists q', n. auto. }
  destruct Et as [(-> & -> & ->)|(p & s & r & -> & -> & Er & Cr & Or & Md & Pp & Ft & Dc & Ee)].
  - (* nothing moved *)
    rewrite stolen_app by auto. rewrite stolen_plain by auto. cbn [stolen map filter combine app].
    destruct (finalize_inv gc w bk [] I) as (w2 & Ef & I2 & U2). rewrite Ef.
    destruct (GO w bk [] [] I) with (w2 := w2) as (Na & Ow); auto.
    { intros a Ia. split; auto. split; auto. apply In_nth_error in Ia. destruct Ia as (k & Ea). destruct (LA k a Ea) as (? & ? & _ & _ & _ & F). exact F. }
    rewrite !app_nil_r in *. rewrite Na. cbn [native_args].
    assert (FI := finish_inv w2 (fold_left (fun b i => stale i b) gc bk) (me_moves (sig m)) (me_result (sig m)) as_ qs moved ls bk I2).
    cbv zeta in FI. apply FI; auto; [|lia].
    intros k a Ea _. split; [apply root_stale_all|]. apply (Ow k a Ea).
  - (* the last argument is moved *)
    rewrite Ee. destruct (wr_inner r) as [q|] eqn:Eq; [|reflexivity].
    destruct (iv_own _ _ _ I s r Er Or) as (Bs & _ & Q). destruct (Q q Eq) as (n & kn & -> & En & Lv & Cn).
    assert (Os : owns w s n) by (exists r; auto).
    pose proof (inv_steal w bk [] s n I Os) as I1. set (w1 := mkWorld (heap w) (set_nth (wrs w) s null_inner)) in *.
    destruct (finalize_inv gc w1 _ _ I1) as (w2 & Ef & I2 & U2). rewrite Ef.
    rewrite stolen_app by auto. rewrite stolen_plain by auto. unfold stolen. cbn [combine filter app]. rewrite Md. cbn [map snd app fold_left].
    assert (AS : forall a, In a as_ -> a <> s /\ root bk a <> s).
    { intros a Ia. assert (Ne : a <> s).
      { intros ->. apply In_nth_error in Ia. destruct Ia as (k & Ea). destruct (LA k s Ea) as (p' & r' & Ep & Er' & Cr' & _).
        rewrite Er in Er'. injection Er' as <-. rewrite Forall_forall in Dc. apply (Dc p' (nth_error_In _ _ Ep)). congruence. }
      split; auto. apply Al; [apply in_or_app; auto| |auto].
      rewrite stolen_app by auto. rewrite stolen_plain by auto. unfold stolen. cbn [combine filter app]. rewrite Md. left. reflexivity. }
    destruct (GO w1 (stale s bk) [n] [Whole n] I1) with (w2 := w2) as (Na & Ow); auto.
    { intros a Ia. destruct (AS a Ia) as (Ne & Nr). split; [|split].
      - unfold w1. cbn [wrs]. rewrite nth_set_nth. destruct (Nat.eqb_spec a s); [contradiction|auto].
      - apply fresh_stale; auto. apply In_nth_error in Ia. destruct Ia as (k & Ea). destruct (LA k a Ea) as (? & ? & _ & _ & _ & F). exact F.
      - apply root_stale. }
    rewrite Na. cbn [native_args]. rewrite Pp, class_eqb_refl, Md.
    destruct (iv_fl _ _ _ I2 n (or_introl eq_refl)) as (k2 & E2 & L2 & _).
    assert (C2 : ce_class k2 = ce_class kn).
    { assert (HC : forall l u u' m0 ku, finalize u l = Done u' -> nth_error (heap u) m0 = Some ku ->
               exists k', nth_error (heap u') m0 = Some k' /\ ce_class k' = ce_class ku).
      { clear. induction l as [|i l IH]; intros u u' m0 ku F E; cbn in F; [injection F as <-; eauto|].
        assert (HD : match dispose u i with Done u1 | Throw u1 => exists k', nth_error (heap u1) m0 = Some k' /\ ce_class k' = ce_class ku | UB _ => True end).
        { unfold dispose. destruct (nth_error (wrs u) i) as [ri|]; [|eauto].
          destruct (wr_own ri); [|cbn; eauto|cbn; eauto]. destruct (wr_inner ri) as [pi|]; [|cbn; eauto].
          destruct (native_drop (wr_class ri)); [|cbn; eauto|eauto].
          unfold native_take. destruct pi as [x|]; [|exact Logic.I]. destruct (nth_error (heap u) x) as [kx|] eqn:Ex; [|exact Logic.I].
          destruct (negb (ce_live kx)); [exact Logic.I|]. destruct (fits _ _); [|exact Logic.I]. cbn [heap].
          rewrite nth_set_nth, E. destruct (m0 =? x); cbn; eexists; split; eauto. }
        destruct (dispose u i) as [u1|u1|]; [| |discriminate]; destruct HD as (k' & E' & <-); eapply IH; eauto. }
      destruct (HC gc w1 w2 n kn Ef En) as (k' & E' & C'). congruence. }
    cbn [native_take]. rewrite E2, L2. cbn [negb]. rewrite C2, Cn, Cr, Ft.
    pose proof (inv_take _ _ _ _ I2) as I3. fold (kill (heap w2) n).
    assert (FI := finish_inv _ _ (me_moves (sig m)) (me_result (sig m)) (as_ ++ [s]) (qs ++ [Whole n]) moved ls bk I3).
    cbn [heap wrs] in FI. cbv zeta in FI. apply FI; auto.
    + intros k a Ea Hk. rewrite nth_error_app1 in Ea by lia. split; [rewrite root_stale_all; apply root_stale|].
      destruct (Ow k a Ea) as (q & m0 & Eq0 & Hc & Ho). exists q, m0. rewrite nth_error_app1 by lia. auto.
    + rewrite app_length. cbn. lia.
Qed.

(** ** Programs *)
Lemma alias_inv w bk i o : inv w bk [] -> o <> Owned ->
  match alias w i o with
  | Done w' => inv w' (noted bk (Alias i o)) []
  | Throw w' => w' = w
  | UB _ => False
  end.
Proof.
  intros I No. unfold alias. destruct (nth_error (wrs w) i) as [r|] eqn:E; [|reflexivity].
  destruct (wr_inner r) as [p|] eqn:P; [|reflexivity]. cbn [noted].
  assert (Bi : exists v, nth_error bk i = Some v).
  { destruct (nth_error bk i) eqn:B; eauto. apply nth_error_None in B. rewrite (iv_len _ _ _ I) in B. apply nth_len in E. lia. }
  destruct Bi as (v & B). unfold root, fresh. rewrite B.
  destruct (wr_own r) eqn:Ow.
  - destruct (iv_own _ _ _ I i r E Ow) as (B' & _ & Q). rewrite B in B'. injection B' as ->. cbn.
    destruct (Q p P) as (n & k & -> & Ek & Lv & C). apply inv_view; auto.
    + exists r. auto.
    + intros _. exists n, k. split; [exists r; auto|]. auto.
  - destruct (iv_view _ _ _ I i r v E ltac:(congruence) B) as (R & Q). apply inv_view; auto.
  - destruct (iv_view _ _ _ I i r v E ltac:(congruence) B) as (R & Q). apply inv_view; auto.
Qed.
Lemma step_inv w bk o : inv w bk [] -> allowed w bk o ->
  match step w o with Done w' => inv w' (noted bk o) [] | Throw w' => w' = w | UB _ => False end.
Proof.
  intros I A. destruct o as [m args gc moved|i|i o]; cbn [step].
  - apply call_inv; auto.
  - destruct (lt_dec i (length (wrs w))) as [Hi|Hi].
    + destruct (dispose_inv w bk [] i I Hi) as (w' & -> & I' & _). exact I'.
    + rewrite dispose_out by auto. reflexivity.
  - apply alias_inv; auto.
Qed.
Lemma run_inv l : forall w bk, inv w bk [] -> obeys w bk l -> exists w' bk', run w l = Done w' /\ inv w' bk' [].
Proof.
  induction l as [|o l IH]; intros w bk I H; cbn; [eauto|]. destruct H as (A & H).
  pose proof (step_inv w bk o I A) as S. destruct (step w o) as [w1|w1|]; [| |contradiction].
  - apply (IH w1 _ S H).
  - subst w1. apply (IH w _ I H).
Qed.
Lemma run_app l1 : forall w l2, run w (l1 ++ l2) = match run w l1 with Done w' => run w' l2 | Throw w' => run w' l2 | UB e => UB e end.
Proof. induction l1 as [|o l1 IH]; intros w l2; cbn; auto. destruct (step w o); auto. Qed.
Lemma run_disposes n : forall w bk s, inv w bk [] -> s + n = length (wrs w) ->
  (forall i r, i < s -> nth_error (wrs w) i = Some r -> wr_inner r = None) ->
  exists w' bk', run w (map Dispose (seq s n)) = Done w' /\ inv w' bk' [] /\
    forall i r, nth_error (wrs w') i = Some r -> wr_inner r = None.
Proof.
  induction n as [|n IH]; intros w bk s I L H; cbn.
  - exists w, bk. split; auto. split; auto. intros i r E. apply (H i r); auto. apply nth_len in E. lia.
  - destruct (dispose_inv w bk [] s I ltac:(lia)) as (w1 & -> & I1 & W1).
    apply (IH w1 _ (S s) I1).
    + rewrite W1, length_set_nth. lia.
    + intros i r Hi E. rewrite W1, nth_set_nth in E. destruct (Nat.eqb_spec i s) as [->|Ne].
      * destruct (nth_error (wrs w) s); cbn in E; [|discriminate]. injection E as <-. reflexivity.
      * apply (H i r); [lia|auto].
Qed.

(** ** A checker for concrete programs *)
Fixpoint argsb (w : world) (bk : book) (ps : list param) (args : list nat) : bool :=
  match ps, args with
  | [], [] => true
  | p :: ps, a :: args =>
      match nth_error (wrs w) a with
      | Some r => class_eqb (wr_class r) (pa_class p) &&
                  match pa_mode p with Borrow => fresh bk a | _ => is_owned (wr_own r) end
      | None => false
      end && argsb w bk ps args
  | _, _ => false
  end.
Definition memb (a : nat) (l : list nat) : bool := existsb (Nat.eqb a) l.
Definition allowedb (w : world) (bk : book) (o : op) : bool :=
  match o with
  | Dispose _ => true
  | Alias _ o => negb (is_owned o)
  | Call m args gc _ =>
      sound_method m && argsb w bk (me_params (sig m)) args &&
      forallb (fun a => forallb (fun s => (a =? s) || negb (root bk a =? s)) (stolen (me_params (sig m)) args)) args &&
      forallb (fun a => negb (memb a gc) && negb (memb (root bk a) gc)) args
  end.
Fixpoint obeysb (w : world) (bk : book) (l : list op) : bool :=
  match l with
  | [] => true
  | o :: l => allowedb w bk o &&
              match step w o with Done w' => obeysb w' (noted bk o) l | Throw w' => obeysb w' bk l | UB _ => true end
  end.
Lemma memb_ok a l : memb a l = false -> ~ In a l.
Proof.
  unfold memb. intros H I. assert (existsb (Nat.eqb a) l = true) by (apply existsb_exists; exists a; split; auto; apply Nat.eqb_refl).
  congruence.
Qed.
Lemma argsb_ok w bk : forall ps args, argsb w bk ps args = true ->
  Forall2 (fun p a => exists r, nth_error (wrs w) a = Some r /\ wr_class r = pa_class p /\
             match pa_mode p with Borrow => fresh bk a = true | _ => wr_own r = Owned end) ps args.
Proof.
  induction ps as [|p ps IH]; intros [|a args] H; try discriminate H; constructor; cbn in H; apply andb_prop in H; destruct H as [H1 H2]; auto.
  destruct (nth_error (wrs w) a) as [r|] eqn:E; [|discriminate]. exists r. split; auto. apply andb_prop in H1. destruct H1 as [C M].
  split; [unfold class_eqb in C; destruct (class_eq_dec _ _); congruence|].
  destruct (pa_mode p); auto; destruct (wr_own r); auto; discriminate M.
Qed.
Lemma allowedb_ok w bk o : allowedb w bk o = true -> allowed w bk o.
Proof.
  destruct o as [m args gc moved|i|i o]; cbn [allowedb allowed]; auto.
  - intros H. apply andb_prop in H. destruct H as [H G]. apply andb_prop in H. destruct H as [H A]. apply andb_prop in H. destruct H as [S T].
    split; [exact S|]. split; [apply argsb_ok, T|]. split.
    + intros a s Ia Is Ne. rewrite forallb_forall in A. specialize (A a Ia). rewrite forallb_forall in A. specialize (A s Is).
      apply orb_prop in A. destruct A as [A|A]; [apply Nat.eqb_eq in A; contradiction|].
      intros C. rewrite C, Nat.eqb_refl in A. discriminate A.
    + intros a Ia. rewrite forallb_forall in G. specialize (G a Ia). apply andb_prop in G. destruct G as [G1 G2].
      split; apply memb_ok; apply negb_true_iff; assumption.
  - destruct o; cbn; congruence.
Qed.
Lemma obeysb_ok l : forall w bk, obeysb w bk l = true -> obeys w bk l.
Proof.
  induction l as [|o l IH]; intros w bk H; cbn in *; [exact Logic.I|]. apply andb_prop in H. destruct H as [A H].
  split; [apply allowedb_ok, A|]. destruct (step w o); auto.
Qed.
