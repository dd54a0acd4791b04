(** C62: [object_create] and the iterators passed to it. *)
From Verif Require Import CallerIter PanicProofs PropertiesBaseline.

Lemma collect_list {A} (ty : A -> ptype) h (l : list A) : forall ts i, i <= length l ->
  exists n, collect ty (next (of_list h l)) i ts =
    (match check_types i (map ty (skipn i l)) ts with Ok _ => Ok (skipn i l) | Err e => Err e | Panic => Panic end, n).
Proof.
  assert (Hx : forall i, next (of_list h l) i = match nth_error l i with Some a => Item a | None => Done end) by reflexivity.
  revert Hx. generalize (next (of_list h l)). intros nx Hx.
  induction ts as [|t ts IH]; intros i Hi; cbn [collect]; rewrite Hx.
  - destruct (nth_error l i) as [a|] eqn:E.
    + rewrite (skipn_nth_cons _ _ _ E). cbn. eauto.
    + apply nth_error_None in E. rewrite skipn_all2 by lia. cbn. eauto.
  - destruct (nth_error l i) as [a|] eqn:E.
    + rewrite (skipn_nth_cons _ _ _ E). cbn [map check_types]. destruct (ptype_eqb (ty a) t); [|eauto].
      destruct (IH (S i)) as [n ->]; [apply nth_error_lt in E; lia|].
      destruct (check_types (S i) (map ty (skipn (S i) l)) ts); eauto.
    + apply nth_error_None in E. rewrite skipn_all2 by lia. cbn. eauto.
Qed.

Lemma capacity_yes bytes size : (size * bytes < 2 ^ 63)%N -> capacity_ok bytes size = true.
Proof. intros H. unfold capacity_ok. apply N.leb_le. lia. Qed.
Lemma capacity_no bytes size : (2 ^ 63 <= size * bytes)%N -> capacity_ok bytes size = false.
Proof. intros H. unfold capacity_ok. apply N.leb_gt. lia. Qed.
Lemma capacity_dec bytes size :
  capacity_ok bytes size = true /\ (size * bytes < 2 ^ 63)%N \/ capacity_ok bytes size = false /\ (2 ^ 63 <= size * bytes)%N.
Proof.
  destruct (N.lt_ge_cases (size * bytes) (2 ^ 63)) as [H|H]; [left|right]; split; auto using capacity_yes, capacity_no.
Qed.
Lemma check_source_list {A} (ty : A -> ptype) bytes h (l : list A) ts : capacity_ok bytes h = true ->
  exists n, check_source bytes ty (of_list h l) ts =
    (match check_types 0 (map ty l) ts with Ok _ => Ok l | Err e => Err e | Panic => Panic end, n).
Proof.
  intros H. unfold check_source. cbn [of_list hint]. rewrite H.
  destruct (collect_list ty h l ts 0 (Nat.le_0_l _)) as [n E]. exists n. exact E.
Qed.

(** What [collect] answers. *)
Definition bad_next {A} (ty : A -> ptype) (nx : nat -> pull A) (i : nat) (ts : list ptype) : Prop :=
  exists k, k <= length ts /\ nx (i + k) = Throws /\
    forall j t, j < k -> nth_error ts j = Some t -> exists a, nx (i + j) = Item a /\ ty a = t.
Definition good_next {A} (ty : A -> ptype) (nx : nat -> pull A) (i : nat) (ts : list ptype) (l : list A) : Prop :=
  length l = length ts /\ nx (i + length ts) = Done /\
  (forall j a, nth_error l j = Some a -> nx (i + j) = Item a /\ nth_error ts j = Some (ty a)).

Lemma collect_spec {A} (ty : A -> ptype) nx : forall ts i,
  (exists l, fst (collect ty nx i ts) = Ok l /\ good_next ty nx i ts l) \/
  (fst (collect ty nx i ts) = Panic /\ bad_next ty nx i ts) \/
  ((exists e, fst (collect ty nx i ts) = Err e) /\ ~ bad_next ty nx i ts /\ forall l, ~ good_next ty nx i ts l).
Proof.
  induction ts as [|t ts IH]; intros i; cbn [collect].
  - destruct (nx i) as [a| |] eqn:E.
    + right. right. split; [cbn; eauto|]. split.
      * intros [k [Hk [Ht _]]]. cbn in Hk. replace (i + k) with i in Ht by lia. congruence.
      * intros l [_ [Hd _]]. cbn in Hd. rewrite Nat.add_0_r in Hd. congruence.
    + left. exists []. split; [reflexivity|]. split; [reflexivity|]. split; [cbn; rewrite Nat.add_0_r; auto|].
      intros [|j] a H; discriminate H.
    + right. left. split; [reflexivity|]. exists 0. split; [cbn; lia|]. rewrite Nat.add_0_r. split; [auto|]. intros; lia.
  - destruct (nx i) as [a| |] eqn:E.
    + destruct (ptype_eqb_spec (ty a) t) as [Ht|Hn].
      * assert (Hbad : bad_next ty nx (S i) ts <-> bad_next ty nx i (t :: ts)).
        { split; intros [k [Hk [Hx Hj]]].
          - exists (S k). cbn. split; [lia|]. replace (i + S k) with (S i + k) by lia. split; [auto|].
            intros [|j] u Hlt Hu; cbn in Hu.
            + injection Hu as <-. rewrite Nat.add_0_r. eauto.
            + replace (i + S j) with (S i + j) by lia. apply Hj; [lia|auto].
          - destruct k as [|k]; [rewrite Nat.add_0_r in Hx; congruence|]. cbn in Hk.
            exists k. split; [lia|]. replace (S i + k) with (i + S k) by lia. split; [auto|].
            intros j u Hlt Hu. replace (S i + j) with (i + S j) by lia. apply Hj; [lia|auto]. }
        assert (Hgood : forall l, good_next ty nx i (t :: ts) l -> exists l', l = a :: l' /\ good_next ty nx (S i) ts l').
        { intros l [Hl [Hd Hj]]. destruct l as [|a' l']; [discriminate|]. exists l'.
          destruct (Hj 0 a' eq_refl) as [H0 _]. rewrite Nat.add_0_r, E in H0. injection H0 as <-.
          split; [auto|]. split; [cbn in Hl; lia|]. split; [cbn in Hd; replace (S i + length ts) with (i + S (length ts)) by lia; auto|].
          intros j x Hx. destruct (Hj (S j) x Hx) as [H1 H2]. replace (S i + j) with (i + S j) by lia. auto. }
        destruct (IH (S i)) as [[l [Hc [Hl [Hd Hj]]]]|[[Hc Hb]|[[e Hc] [Hb Hg]]]];
          destruct (collect ty nx (S i) ts) as [r n]; cbn in Hc; subst r; cbn [fst].
        -- left. exists (a :: l). split; [reflexivity|]. split; [cbn; lia|].
           split; [cbn; replace (i + S (length ts)) with (S i + length ts) by lia; auto|].
           intros [|j] x Hx; cbn in Hx.
           ++ injection Hx as <-. rewrite Nat.add_0_r. cbn. split; [auto|congruence].
           ++ replace (i + S j) with (S i + j) by lia. exact (Hj j x Hx).
        -- right. left. split; [reflexivity|]. apply Hbad; auto.
        -- right. right. split; [eauto|]. split; [rewrite <- Hbad; auto|].
           intros l' Hl'. destruct (Hgood _ Hl') as [l'' [_ H]]. exact (Hg _ H).
      * right. right. split; [cbn; eauto|]. split.
        -- intros [k [Hk [Hx Hj]]]. destruct k as [|k]; [rewrite Nat.add_0_r in Hx; congruence|].
           destruct (Hj 0 t ltac:(lia) eq_refl) as [a' [H1 H2]]. rewrite Nat.add_0_r, E in H1. congruence.
        -- intros l [Hl [_ Hj]]. destruct l as [|a' l]; [discriminate|]. destruct (Hj 0 a' eq_refl) as [H1 H2].
           rewrite Nat.add_0_r, E in H1. cbn in H2. congruence.
    + right. right. split; [cbn; eauto|]. split.
      * intros [k [Hk [Hx Hj]]]. destruct k as [|k]; [rewrite Nat.add_0_r in Hx; congruence|].
        destruct (Hj 0 t ltac:(lia) eq_refl) as [a' [H1 H2]]. rewrite Nat.add_0_r, E in H1. congruence.
      * intros l [Hl [_ Hj]]. destruct l as [|a' l]; [discriminate|]. destruct (Hj 0 a' eq_refl) as [H1 H2].
        rewrite Nat.add_0_r, E in H1. congruence.
    + right. left. split; [reflexivity|]. exists 0. split; [lia|]. rewrite Nat.add_0_r. split; [auto|]. intros; lia.
Qed.

(** ** The theorems *)

(** The items of a vector (or any other iterator that gives them and then ends): as if the vector
    had been passed, whatever size is reported, as long as a buffer of that size can exist. *)
Theorem C62_same_as_vectors : forall sb cb b c h1 vs h2 ks,
  (h1 * sb < 2 ^ 63)%N -> (h2 * cb < 2 ^ 63)%N ->
  fst (object_create_from sb cb b c (of_list h1 vs) (of_list h2 ks)) = object_create b c vs ks.
Proof.
  intros sb cb b c h1 vs h2 ks H1 H2. apply capacity_yes in H1, H2. unfold object_create_from.
  destruct (check_source_list prop_type sb h1 vs (ct_states (ci_ty c)) H1) as [n ->].
  destruct (check_source_list ch_type cb h2 ks (ct_chans (ci_ty c)) H2) as [m ->].
  destruct (contains (b_contracts b) (ci_handle c)) eqn:Ec;
    [|unfold object_create; rewrite Ec; reflexivity]. cbn [negb].
  destruct (check_types 0 (map prop_type vs) (ct_states (ci_ty c))) eqn:E1;
    [|unfold object_create; rewrite Ec, E1; reflexivity|unfold object_create; rewrite Ec, E1; reflexivity].
  destruct (check_types 0 (map ch_type ks) (ct_chans (ci_ty c))) eqn:E2; cbn [fst]; [reflexivity| |];
    unfold object_create; rewrite Ec, E1, E2; reflexivity.
Qed.
Print Assumptions C62_same_as_vectors.

Lemma collect_pulls {A} (ty : A -> ptype) nx : forall ts i, snd (collect ty nx i ts) <= S (i + length ts).
Proof.
  induction ts as [|t ts IH]; intros i; cbn [collect].
  - destruct (nx i); cbn; lia.
  - destruct (nx i); cbn; try lia. destruct (ptype_eqb (ty a) t); cbn; [|lia].
    specialize (IH (S i)). destruct (collect ty nx (S i) ts) as [[l|e|] n]; cbn in *; lia.
Qed.

(** The call always returns: an iterator is asked for one item more than the contract has fields, at
    most, also when it never ends. *)
Theorem C62_asks_once_more_than_fields : forall sb cb b c ss cs n m r,
  object_create_from sb cb b c ss cs = (r, (n, m)) ->
  n <= S (length (ct_states (ci_ty c))) /\ m <= S (length (ct_chans (ci_ty c))).
Proof.
  intros sb cb b c ss cs n m r H. unfold object_create_from in H.
  destruct (negb _); [injection H as _ <- <-; lia|].
  assert (Hs : forall A (ty : A -> ptype) bytes s ts, snd (check_source bytes ty s ts) <= S (length ts)).
  { intros A ty bytes s ts. unfold check_source. destruct (hint s); [|cbn; lia].
    destruct (capacity_ok bytes n0); [|cbn; lia]. apply (collect_pulls ty (next s) ts 0). }
  pose proof (Hs _ prop_type sb ss (ct_states (ci_ty c))) as H1.
  pose proof (Hs _ ch_type cb cs (ct_chans (ci_ty c))) as H2.
  destruct (check_source sb prop_type ss _) as [[vs|e|] n1]; cbn in H1; try (injection H as _ <- <-; lia).
  destruct (check_source cb ch_type cs _) as [[ks|e|] m1]; cbn in H2; injection H as _ <- <-; lia.
Qed.
Print Assumptions C62_asks_once_more_than_fields.

(** All of the caller's code runs before anything is changed: a call that does not succeed, or that panics
    because the iterators do, leaves the baseline as it was. *)
Theorem C62_no_success_no_change : forall sb cb b c ss cs r b' n,
  creach b -> object_create_from sb cb b c ss cs = (r, b', n) -> is_ok r = false -> b' = b.
Proof.
  intros sb cb b c ss cs r b' n Hr H Hn. unfold object_create_from in H.
  destruct (negb _); [injection H as <- <- _; auto|].
  destruct (check_source sb prop_type ss _) as [[vs|e|] n1]; try (injection H as _ <- _; auto; fail).
  destruct (check_source cb ch_type cs _) as [[ks|e|] m1]; try (injection H as _ <- _; auto; fail).
  destruct (p_create_spec b c vs ks (creach_cinv _ Hr)) as [[_ [e E]]|[_ [oh [ob [b1 [E _]]]]]]; rewrite E in H;
    injection H as <- <- _; [auto|discriminate].
Qed.
Print Assumptions C62_no_success_no_change.

Lemma list_eq_nth {A} : forall l l' : list A, (forall i, nth_error l i = nth_error l' i) -> l = l'.
Proof.
  induction l as [|x l IH]; intros [|y l'] H; auto; try (specialize (H 0); discriminate H).
  pose proof (H 0) as H0. injection H0 as <-. f_equal. apply IH. intros i. exact (H (S i)).
Qed.

Lemma check_source_spec {A} bytes (ty : A -> ptype) s ts :
  (fits bytes ty s ts /\ ~ blows bytes ty s ts /\ exists l, fst (check_source bytes ty s ts) = Ok l /\ map ty l = ts) \/
  (~ fits bytes ty s ts /\ blows bytes ty s ts /\ fst (check_source bytes ty s ts) = Panic) \/
  (~ fits bytes ty s ts /\ ~ blows bytes ty s ts /\ exists e, fst (check_source bytes ty s ts) = Err e).
Proof.
  unfold check_source, fits. destruct (hint s) as [size|] eqn:Eh.
  2:{ right. left. split; [intros [[z [H _]] _]; discriminate|]. split; [left; intros z H; congruence|reflexivity]. }
  destruct (capacity_dec bytes size) as [[-> Ec]|[-> Ec]].
  2:{ right. left. split; [intros [[z [H H']] _]; injection H as <-; lia|]. split; [left; intros z H|reflexivity].
      rewrite Eh in H. injection H as <-. exact Ec. }
  assert (Hblow : blows bytes ty s ts <-> bad_next ty (next s) 0 ts).
  { unfold blows. split.
    - intros [H|[k [Hk [Ht Hg]]]]; [specialize (H _ Eh); lia|]. exists k. cbn. split; [auto|]. split; [auto|].
      intros j t Hj Hn. apply Hg. rewrite <- (firstn_skipn k ts) in Hn. rewrite nth_error_app1 in Hn; [auto|].
      rewrite firstn_length. lia.
    - intros [k [Hk [Ht Hg]]]. right. exists k. split; [auto|]. split; [auto|]. intros j t Hn.
      pose proof (nth_error_lt _ _ _ Hn) as Hl. rewrite firstn_length in Hl. apply Hg; [lia|].
      rewrite <- (firstn_skipn k ts), nth_error_app1; [auto|]. rewrite firstn_length. lia. }
  assert (Hfit : (exists l, good_next ty (next s) 0 ts l) <-> gives ty s ts /\ next s (length ts) = Done).
  { split.
    - intros [l [Hl [Hd Hj]]]. split; [|auto]. intros i t Hi. destruct (nth_error l i) as [a|] eqn:Ea.
      + destruct (Hj _ _ Ea) as [H1 H2]. exists a. cbn in H1. split; congruence.
      + apply nth_error_None in Ea. apply nth_error_lt in Hi. lia.
    - intros [Hg Hd]. clear -Hg Hd.
      assert (Hx : forall us i, (forall j t, nth_error us j = Some t -> exists a, next s (i + j) = Item a /\ ty a = t) ->
                exists l, length l = length us /\ forall j a, nth_error l j = Some a -> next s (i + j) = Item a /\ nth_error us j = Some (ty a)).
      { induction us as [|u us IH]; intros i H.
        - exists []. split; [reflexivity|]. intros [|j] a Ha; discriminate Ha.
        - destruct (H 0 u eq_refl) as [a [Ha Hu]]. destruct (IH (S i)) as [l [Hl Hj]].
          { intros j t Hn. replace (S i + j) with (i + S j) by lia. apply H. exact Hn. }
          exists (a :: l). split; [cbn; lia|]. intros [|j] x Hn; cbn in Hn.
          + injection Hn as <-. cbn. split; [auto|congruence].
          + replace (i + S j) with (S i + j) by lia. apply Hj. exact Hn. }
      destruct (Hx ts 0 Hg) as [l [Hl Hj]]. exists l. split; [auto|]. split; [auto|]. exact Hj. }
  rewrite Hblow.
  assert (Hcap : exists z, Some size = Some z /\ (z * bytes < 2 ^ 63)%N) by eauto.
  destruct (collect_spec ty (next s) ts 0) as [[l [Hc Hg]]|[[Hc Hb]|[[e Hc] [Hb Hg]]]].
  - left. split; [split; [auto|apply Hfit; eauto]|]. split.
    + intros [k [Hk [Ht _]]]. destruct Hg as [Hl [Hd Hj]]. cbn in Ht, Hd.
      destruct (Nat.eq_dec k (length ts)) as [->|]; [congruence|].
      destruct (nth_error l k) as [a|] eqn:Ea; [destruct (Hj _ _ Ea) as [H1 _]; cbn in H1; congruence|].
      apply nth_error_None in Ea. lia.
    + exists l. split; [auto|]. destruct Hg as [Hl [_ Hj]]. apply list_eq_nth. intros i.
      rewrite nth_error_map. destruct (nth_error l i) as [a|] eqn:Ea; cbn.
      * symmetry. apply Hj; auto.
      * symmetry. apply nth_error_None. apply nth_error_None in Ea. lia.
  - right. left. split; [|auto]. intros [_ Hf]. apply Hfit in Hf. destruct Hf as [l [Hl [Hd Hj]]].
    destruct Hb as [k [Hk [Ht _]]]. cbn in Ht, Hd. destruct (Nat.eq_dec k (length ts)) as [->|]; [congruence|].
    destruct (nth_error l k) as [a|] eqn:Ea; [destruct (Hj _ _ Ea) as [H1 _]; cbn in H1; congruence|].
    apply nth_error_None in Ea. lia.
  - right. right. split; [|split; [auto|eauto]]. intros [_ Hf]. apply Hfit in Hf. destruct Hf as [l Hl]. exact (Hg _ Hl).
Qed.

Lemma create_from_spec sb cb b c ss cs : creach b ->
  let S1 := ct_states (ci_ty c) in let S2 := ct_chans (ci_ty c) in
  let r := fst (fst (object_create_from sb cb b c ss cs)) in
  (is_ok r = true <-> con_at b (ci_handle c) <> None /\ fits sb prop_type ss S1 /\ fits cb ch_type cs S2) /\
  (r = Panic <-> con_at b (ci_handle c) <> None /\
     (blows sb prop_type ss S1 \/ fits sb prop_type ss S1 /\ blows cb ch_type cs S2)).
Proof.
  intros Hr S1 S2 r. subst r. unfold object_create_from. fold S1 S2.
  destruct (contains (b_contracts b) (ci_handle c)) eqn:Ec; cbn [negb].
  2:{ assert (Hn : ~ con_at b (ci_handle c) <> None) by (unfold con_at; rewrite <- contains_get; congruence).
      cbn. split; split; try discriminate; tauto. }
  assert (Hy : con_at b (ci_handle c) <> None) by (apply contains_get; auto).
  destruct (check_source_spec sb prop_type ss S1) as [[F1 [B1 [l1 [E1 M1]]]]|[[F1 [B1 E1]]|[F1 [B1 [e1 E1]]]]];
    destruct (check_source sb prop_type ss S1) as [r1 n1]; cbn in E1; subst r1;
    [|cbn; split; split; try discriminate; tauto|cbn; split; split; try discriminate; tauto].
  destruct (check_source_spec cb ch_type cs S2) as [[F2 [B2 [l2 [E2 M2]]]]|[[F2 [B2 E2]]|[F2 [B2 [e2 E2]]]]];
    destruct (check_source cb ch_type cs S2) as [r2 n2]; cbn in E2; subst r2;
    [|cbn; split; split; try discriminate; tauto|cbn; split; split; try discriminate; tauto].
  destruct (p_create_spec b c l1 l2 (creach_cinv _ Hr)) as [[Hn _]|[_ [oh [ob [b1 [E _]]]]]].
  - exfalso. apply Hn. split; [exact Hy|]. auto.
  - rewrite E. cbn. split; split; try discriminate; tauto.
Qed.

(** Exactly when it succeeds: the contract is registered, the sizes fit, and each iterator gives
    one item of each field's type, in order, and then ends. *)
Theorem C62_succeeds_iff : forall sb cb b c ss cs, creach b ->
  (is_ok (fst (fst (object_create_from sb cb b c ss cs))) = true <->
   con_at b (ci_handle c) <> None /\ fits sb prop_type ss (ct_states (ci_ty c)) /\ fits cb ch_type cs (ct_chans (ci_ty c))).
Proof. intros sb cb b c ss cs Hr. apply (create_from_spec sb cb b c ss cs Hr). Qed.
Print Assumptions C62_succeeds_iff.

(** Exactly when it panics: an iterator's size does not fit, or asking it for an item it is asked for panics. *)
Theorem C62_panics_iff : forall sb cb b c ss cs, creach b ->
  (fst (fst (object_create_from sb cb b c ss cs)) = Panic <->
   con_at b (ci_handle c) <> None /\
   (blows sb prop_type ss (ct_states (ci_ty c)) \/
    fits sb prop_type ss (ct_states (ci_ty c)) /\ blows cb ch_type cs (ct_chans (ci_ty c)))).
Proof. intros sb cb b c ss cs Hr. apply (create_from_spec sb cb b c ss cs Hr). Qed.
Print Assumptions C62_panics_iff.

(** An iterator whose size is refused (or whose size panics) is not asked for any item; nor
    is the channels' iterator, when the states' is not accepted. *)
Theorem C62_refused_sizes_take_no_item : forall sb cb b c ss cs r b' n m,
  object_create_from sb cb b c ss cs = (r, b', (n, m)) ->
  ((forall z, hint ss = Some z -> (2 ^ 63 <= z * sb)%N) -> n = 0 /\ m = 0) /\
  ((forall z, hint cs = Some z -> (2 ^ 63 <= z * cb)%N) -> m = 0) /\
  (con_at b (ci_handle c) = None -> n = 0 /\ m = 0).
Proof.
  intros sb cb b c ss cs r b' n m H. unfold object_create_from in H.
  assert (Hz : forall A (ty : A -> ptype) bytes (s : source A) ts, (forall z, hint s = Some z -> (2 ^ 63 <= z * bytes)%N) ->
    check_source bytes ty s ts = (Panic, 0)).
  { intros A ty bytes s ts Hh. unfold check_source. destruct (hint s) as [z|]; [|reflexivity]. unfold capacity_ok.
    specialize (Hh z eq_refl). replace (z * bytes <=? 2 ^ 63 - 1)%N with false; [reflexivity|]. symmetry. apply N.leb_gt. lia. }
  split; [|split].
  - intros Hs. rewrite (Hz _ prop_type _ _ _ Hs) in H. destruct (negb _); injection H as _ _ <- <-; auto.
  - intros Hc. rewrite (Hz _ ch_type _ _ _ Hc) in H. destruct (negb _); [injection H as _ _ _ <-; auto|].
    destruct (check_source sb prop_type ss _) as [[vs|e|] n1]; injection H as _ _ _ <-; auto.
  - intros Hc. assert (E : contains (b_contracts b) (ci_handle c) = false).
    { unfold contains. unfold con_at in Hc. rewrite Hc. reflexivity. }
    rewrite E in H. injection H as _ _ <- <-. auto.
Qed.
Print Assumptions C62_refused_sizes_take_no_item.

(** An endless iterator that claims no impossible size is rejected with an error. *)
Theorem C62_endless_is_rejected : forall sb cb b c ss cs size, creach b ->
  endless ss -> hint ss = Some size -> (size * sb < 2 ^ 63)%N ->
  exists e, fst (object_create_from sb cb b c ss cs) = (Err e, b).
Proof.
  intros sb cb b c ss cs size Hr He Hh Hc.
  destruct (object_create_from sb cb b c ss cs) as [[r b'] n] eqn:E.
  pose proof (create_from_spec sb cb b c ss cs Hr) as [Hok Hp]. rewrite E in Hok, Hp. cbn [fst] in Hok, Hp.
  assert (Hb : ~ blows sb prop_type ss (ct_states (ci_ty c))).
  { intros [H|[k [_ [Ht _]]]]; [specialize (H _ Hh); lia|]. destruct (He k) as [a Ha]. congruence. }
  assert (Hf : ~ fits sb prop_type ss (ct_states (ci_ty c))).
  { intros [_ [_ Hd]]. destruct (He (length (ct_states (ci_ty c)))) as [a Ha]. congruence. }
  destruct r as [o|e|].
  - exfalso. destruct (proj1 Hok eq_refl) as [_ [H _]]. contradiction.
  - exists e. cbn. f_equal. eapply C62_no_success_no_change; eauto.
  - exfalso. destruct (proj1 Hp eq_refl) as [_ [H|[H _]]]; contradiction.
Qed.
Print Assumptions C62_endless_is_rejected.

(** Refuted: that a mismatch is always reported as an error.  The standard library's endless
    iterators report [usize::MAX] as their size: with them the call panics, for every registered contract,
    although neither iterator does. *)
Theorem C62_mismatch_is_an_error_refuted : forall sb cb b c ss cs, creach b -> (1 <= sb)%N -> (1 <= cb)%N ->
  con_at b (ci_handle c) <> None ->
  (hint ss = Some usize_max \/
   fits sb prop_type ss (ct_states (ci_ty c)) /\ hint cs = Some usize_max) ->
  fst (object_create_from sb cb b c ss cs) = (Panic, b).
Proof.
  intros sb cb b c ss cs Hr Hsb Hcb Hy H.
  assert (Hcap : forall z, (1 <= z)%N -> (2 ^ 63 <= usize_max * z)%N).
  { intros z Hz. unfold usize_max. nia. }
  destruct (object_create_from sb cb b c ss cs) as [[r b'] n] eqn:E.
  pose proof (C62_panics_iff sb cb b c ss cs Hr) as Hp. rewrite E in Hp. cbn [fst] in Hp.
  assert (Hr' : r = Panic).
  { apply Hp. split; [auto|]. destruct H as [H|[H1 H2]]; [left|right; split; [auto|]]; left; intros z Hz.
    - rewrite H in Hz. injection Hz as <-. auto.
    - rewrite H2 in Hz. injection Hz as <-. auto. }
  subst r. cbn. f_equal. eapply C62_no_success_no_change; eauto.
Qed.
Print Assumptions C62_mismatch_is_an_error_refuted.

(** Only the items that were asked for matter. *)
Theorem C62_the_rest_is_ignored : forall sb cb b c ss ss' cs cs',
  hint ss = hint ss' -> hint cs = hint cs' ->
  (forall i, i <= length (ct_states (ci_ty c)) -> next ss i = next ss' i) ->
  (forall i, i <= length (ct_chans (ci_ty c)) -> next cs i = next cs' i) ->
  object_create_from sb cb b c ss cs = object_create_from sb cb b c ss' cs'.
Proof.
  intros sb cb b c ss ss' cs cs' H1 H2 H3 H4.
  assert (Hx : forall A (ty : A -> ptype) f g ts i, (forall j, j <= length ts -> f (i + j) = g (i + j)) ->
            collect ty f i ts = collect ty g i ts).
  { induction ts as [|t ts IH]; intros i H; cbn [collect];
      replace (f i) with (g i) by (specialize (H 0 ltac:(lia)); rewrite Nat.add_0_r in H; auto); auto.
    destruct (g i); auto. rewrite (IH (S i)); [auto|]. intros j Hj. replace (S i + j) with (i + S j) by lia.
    apply H. cbn. lia. }
  unfold object_create_from, check_source. rewrite H1, H2.
  rewrite (Hx _ prop_type (next ss) (next ss')) by exact H3. rewrite (Hx _ ch_type (next cs) (next cs')) by exact H4.
  reflexivity.
Qed.
Print Assumptions C62_the_rest_is_ignored.

(** Concrete iterators on [exB]: a vector's, an endless one with an honest lower bound of none, [repeat], one
    that panics at its second item. *)
Theorem C62_met :
  let c := mkCinst exC exH in
  let ch := of_list 1 [exChan] in
  let forever := fun _ : nat => Item (PPrim (VU8 7)) in
  let throws := fun i : nat => match i with 0 => Item (PPrim (VU8 7)) | _ => Throws end in
  let go ss := object_create_from 40 56 exB c ss ch in
  creach exB /\ con_at exB (ci_handle c) <> None /\
  go (of_list 3 exVals) = (object_create exB c exVals [exChan], (4, 2)) /\
  is_ok (fst (object_create exB c exVals [exChan])) = true /\
  go (mkSource (Some 0%N) forever) = (Err (EFieldTypeMismatch 1), exB, (2, 0)) /\
  go (mkSource (Some usize_max) forever) = (Panic, exB, (0, 0)) /\
  go (mkSource (Some 0%N) throws) = (Panic, exB, (2, 0)) /\
  fits 40 prop_type (of_list 3 exVals) (ct_states exC) /\
  endless (mkSource (Some usize_max) forever) /\
  blows 40 prop_type (mkSource (Some 0%N) throws) (ct_states exC).
Proof.
  cbv zeta. split; [exact (reach_creach _ exB_reach)|]. split; [vm_compute; discriminate|].
  split; [vm_compute; reflexivity|]. split; [vm_compute; reflexivity|]. split; [vm_compute; reflexivity|].
  split; [vm_compute; reflexivity|]. split; [vm_compute; reflexivity|]. split; [|split].
  - split; [exists 3%N; split; reflexivity|]. split; [|reflexivity].
    intros [|[|[|[|i]]]] t H; cbn in H; try discriminate; injection H as <-; eexists; split; reflexivity.
  - intros i. eexists. reflexivity.
  - right. exists 1. split; [cbn; lia|]. split; [reflexivity|].
    intros [|[|i]] t H; cbn in H; try discriminate; injection H as <-; eexists; split; reflexivity.
Qed.
Print Assumptions C62_met.
