(** C37: the arena's iterators, indexing and conversions.

    Read [deque] (ArenaIterProofs) as the specification: taking elements from the
    front or back of a plain list, with the number left after each. *)
From Verif Require Import ArenaIterProofs.

(** For every history, and every mix of [next] and [next_back] however long
    (past the end too), the iterator answers what the list of live pairs would,
    reports the exact length after every call, and never panics. *)
Theorem C37_iterator_is_the_live_pairs :
  forall (A : Type) (n : nat) (os : list (aop A)) (ds : list dir),
    Forall aop_ok os ->
    let a := afinal (with_capacity n) os in
    cursor_len (iter a) = length (aiter a) /\
    pulls (iter a) ds = Ok (deque (aiter a) ds).
Proof.
  intros A n os ds H a.
  assert (I : ainv a) by (apply afinal_inv; [apply with_capacity_inv|exact H]).
  split; [|exact (iter_pulls a ds I)]. symmetry. apply (iter_length a I).
Qed.
Print Assumptions C37_iterator_is_the_live_pairs.

(** [deque] taken only from one end lists everything in order: collecting with
    [next] gives the pairs, collecting with [rev()] gives them backwards. *)
Theorem C37_collect_and_rev_collect :
  forall (B : Type) (l : list B),
    map fst (deque l (repeat Front (length l))) = map Some l /\
    map fst (deque l (repeat Back (length l))) = map Some (rev l).
Proof.
  intros B l. split.
  - induction l as [|x l IH]; cbn; auto. now rewrite IH.
  - rewrite <- (rev_involutive l) at 1 2. generalize (rev l). clear. intros l.
    rewrite rev_length. induction l as [|x l IH]; auto.
    cbn [length repeat deque]. unfold last_opt. rewrite rev_involutive. cbn. now rewrite IH.
Qed.
Print Assumptions C37_collect_and_rev_collect.

(** Iteration order is the order of the handles ([Ord for Index]), strictly. *)
Theorem C37_iteration_follows_handle_order :
  forall (A : Type) (n : nat) (os : list (aop A)) (l1 l2 : list (index * A)) (x y : index * A),
    Forall aop_ok os ->
    aiter (afinal (with_capacity n) os) = l1 ++ x :: y :: l2 ->
    index_cmp (fst x) (fst y) = Lt.
Proof.
  intros A n os l1 l2 [h v] [h' v'] H E.
  destruct (iter_len_agree n os H) as (_ & _ & S & _). cbn zeta in S. rewrite E in S.
  assert (L : ix h < ix h').
  { clear -S. induction l1 as [|[] l1 IH]; cbn in S; [|apply IH; tauto].
    destruct S as [S _]. apply (S h' v'). now left. }
  unfold index_cmp; cbn. apply Nat.compare_lt_iff in L. now rewrite L.
Qed.
Print Assumptions C37_iteration_follows_handle_order.

(** That order is a strict total order on handles: slot and generation both count. *)
Theorem C37_handle_order_is_total :
  (forall a b, index_cmp a b = Eq <-> a = b) /\
  (forall a b, index_cmp b a = CompOpp (index_cmp a b)) /\
  (forall a b c, index_cmp a b = Lt -> index_cmp b c = Lt -> index_cmp a c = Lt).
Proof.
  unfold index_cmp. split; [|split].
  - intros [i g] [j g']. cbn [ix gen]. destruct (Nat.compare_spec i j) as [E|E|E].
    + subst j. rewrite N.compare_eq_iff. split; [intros ->; reflexivity|congruence].
    + split; [discriminate|]. intros H. injection H as -> _. lia.
    + split; [discriminate|]. intros H. injection H as -> _. lia.
  - intros a b. rewrite (Nat.compare_antisym (ix a) (ix b)). destruct (Nat.compare (ix a) (ix b)); cbn; auto. apply N.compare_antisym.
  - intros a b c. destruct (Nat.compare_spec (ix a) (ix b)) as [E|E|E]; destruct (Nat.compare_spec (ix b) (ix c)) as [F|F|F];
      destruct (Nat.compare_spec (ix a) (ix c)) as [G|G|G]; try lia; try discriminate; auto.
    rewrite !N.compare_lt_iff. lia.
Qed.
Print Assumptions C37_handle_order_is_total.

(** [iter_mut]: same answers; afterwards every handle that was visited holds what
    the client stored, every other handle is as before, and the arena is the one
    obtained by writing through [get_mut] instead (so every other guarantee about
    histories continues to hold). *)
Theorem C37_iter_mut_writes_exactly_what_was_visited :
  forall (A : Type) (n : nat) (os : list (aop A)) (ds : list (dir * (index -> A -> A))),
    Forall aop_ok os ->
    let a := afinal (with_capacity n) os in
    let rs := deque (aiter a) (map fst ds) in
    exists m, pulls_mut (iter_mut a) ds = Ok (rs, m) /\
      let a' := after_mut a m in
      (forall h v, In (h, v) (written ds rs) -> get a' h = Some v) /\
      (forall h, ~ In h (map fst (answers rs)) -> get a' h = get a h) /\
      a' = afinal (with_capacity n) (os ++ map (fun w => ASet (fst w) (snd w)) (written ds rs)).
Proof.
  intros A n os ds H a rs.
  assert (I : ainv a) by (apply afinal_inv; [apply with_capacity_inv|exact H]).
  destruct (iter_mut_spec a ds I) as (m & E & ND & L & W). exists m. split; [exact E|].
  cbv zeta. rewrite W. destruct (sets_get _ a I ND L) as [H1 H2].
  split; [exact H1|split].
  - intros h Hh. apply H2. rewrite written_fst; [exact Hh|]. now rewrite deque_length, map_length.
  - rewrite afinal_app. reflexivity.
Qed.
Print Assumptions C37_iter_mut_writes_exactly_what_was_visited.

(** [arena[h]] panics exactly when [get(h)] is [None], and otherwise is it. *)
Theorem C37_indexing_panics_iff_dead :
  forall (A : Type) (a : arena A) (h : index) (v : A),
    (index_op a h = Panic <-> get a h = None) /\
    (index_op a h = Ok v <-> get a h = Some v) /\
    (index_set_op a h v = Panic <-> get a h = None).
Proof.
  intros A a h v. unfold index_op, index_set_op, set. destruct (get a h) as [w|]; repeat split; intros; congruence.
Qed.
Print Assumptions C37_indexing_panics_iff_dead.

(** Collecting any sequence into an arena (whatever size hint its iterator gives)
    and iterating back by value gives the same sequence; the handles are the
    positions; nothing panics. *)
Theorem C37_from_iter_into_iter :
  forall (A : Type) (hint : nat) (l : list A),
    exists a, from_iter hint l = Ok a /\ len a = length l /\
      (exists rs, pulls (into_iter a) (repeat Front (length l)) = Ok rs /\
                  map (fun r => value_of (fst r)) rs = map Some l) /\
      forall i v, nth_error l i = Some v -> get a (mkIndex i 0%N) = Some v.
Proof.
  intros A hint l. destruct (from_iter_spec hint l) as (a & E & It & L). exists a.
  split; [exact E|]. split; [exact L|].
  assert (I : ainv a).
  { revert E. unfold from_iter. generalize (with_capacity_inv (A := A) (Nat.max hint 1)).
    generalize (with_capacity (A := A) (Nat.max hint 1)). clear. induction l as [|x l IH]; intros a0 I0 E; cbn in E.
    - injection E as <-. exact I0.
    - destruct (insert a0 x) as [[a1 h1]| |] eqn:Ei; try discriminate.
      eapply IH; [|exact E]. eapply insert_inv; eauto. }
  assert (Len : length (aiter a) = length l).
  { rewrite It, combine_length, map_length, seq_length. lia. }
  split.
  - exists (deque (aiter a) (repeat Front (length l))). split.
    + unfold into_iter. apply iter_pulls. exact I.
    + rewrite <- Len. rewrite <- map_map, (proj1 (C37_collect_and_rev_collect _ _)).
      rewrite map_map. cbn. rewrite It. clear.
      generalize 0. induction l as [|x l IH]; intros k; cbn; auto. f_equal. apply IH.
  - intros i v Hn. apply iter_in. rewrite It. clear -Hn.
    assert (G : forall k, In (mkIndex (k + i) 0%N, v) (combine (map (fun j => mkIndex j 0%N) (seq k (length l))) l)).
    { revert i Hn. induction l as [|x l IH]; intros [|i] Hn k; cbn in Hn; try discriminate.
      - injection Hn as ->. cbn. left. now rewrite Nat.add_0_r.
      - cbn. right. replace (k + S i) with (S k + i) by lia. apply IH. exact Hn. }
    exact (G 0).
Qed.
Print Assumptions C37_from_iter_into_iter.

(** Non-vacuity: a history with a hole; pulling from both ends; writing during
    mutable iteration. *)
Example arena_iter_example :
  let os := [AInsert 10; AInsert 20; AInsert 30; ARemove (mkIndex 1 0%N); AInsert 40; AInsert 50;
             ARemove (mkIndex 0 0%N)] in
  let a := afinal (with_capacity 2) os in
  Forall aop_ok os /\
  aiter a = [(mkIndex 1 1%N, 40); (mkIndex 2 0%N, 30); (mkIndex 3 1%N, 50)] /\
  pulls (iter a) [Back; Front; Back; Front] =
    Ok [(Some (mkIndex 3 1%N, 50), 2); (Some (mkIndex 1 1%N, 40), 1); (Some (mkIndex 2 0%N, 30), 0); (None, 0)] /\
  (exists m rs, pulls_mut (iter_mut a) [(Back, fun _ v => v + 1); (Front, fun h _ => ix h)] = Ok (rs, m) /\
     aiter (after_mut a m) = [(mkIndex 1 1%N, 1); (mkIndex 2 0%N, 30); (mkIndex 3 1%N, 51)]) /\
  index_op a (mkIndex 0 0%N) = Panic.
Proof.
  cbv zeta. split; [repeat constructor|]. split; [reflexivity|]. split; [reflexivity|].
  split; [|reflexivity]. do 2 eexists. split; reflexivity.
Qed.
Example from_iter_example :
  exists a, from_iter 1 [7; 8; 9] = Ok a /\ len a = 3 /\ get a (mkIndex 2 0%N) = Some 9.
Proof. eexists. repeat split. Qed.
