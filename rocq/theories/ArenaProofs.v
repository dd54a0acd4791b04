(** Proofs about the generational arena. *)
From Verif Require Export BaseProofs ArenaSpec.

Section Proofs.
Context {A : Type}.
Implicit Types (a : arena A) (l : list (entry A)).

(** ** The free-list invariant *)
Fixpoint chain (l : list (entry A)) (head : option nat) (fl : list nat) : Prop :=
  match fl with
  | [] => head = None
  | i :: t => head = Some i /\
              exists nf, nth_error l i = Some (Free nf) /\ chain l nf t
  end.

Definition is_occ (e : entry A) : bool :=
  match e with Occ _ _ => true | Free _ => false end.
Definition count_occ_e (l : list (entry A)) : nat := length (filter is_occ l).
Local Arguments count_occ_e : simpl never.

Record ainv (a : arena A) : Prop := {
  ai_free : exists fl, NoDup fl /\ chain (items a) (free_head a) fl /\
            (forall i, In i fl <-> exists nf, nth_error (items a) i = Some (Free nf));
  ai_gen : forall i g v, nth_error (items a) i = Some (Occ g v) -> (g <= agen a)%N;
  ai_len : alen a = count_occ_e (items a);
  ai_nonempty : 0 < length (items a)
}.

Lemma chain_ext l l' head fl :
  (forall i, In i fl -> nth_error l' i = nth_error l i) ->
  chain l head fl -> chain l' head fl.
Proof.
  revert head; induction fl as [|i t IH]; cbn; intros head H Hc; auto.
  destruct Hc as [Hh [nf [Hn Hc]]]. split; auto.
  exists nf. split.
  - rewrite H; auto.
  - apply IH; auto.
Qed.

Lemma count_occ_app l1 l2 : count_occ_e (l1 ++ l2) = count_occ_e l1 + count_occ_e l2.
Proof. unfold count_occ_e. rewrite filter_app, app_length. reflexivity. Qed.

Lemma count_occ_set l i e e' :
  nth_error l i = Some e ->
  count_occ_e (list_set l i e') + (if is_occ e then 1 else 0) =
  count_occ_e l + (if is_occ e' then 1 else 0).
Proof.
  revert i; induction l as [|h t IH]; intros [|i] H; cbn in H; try congruence.
  - injection H as ->. unfold count_occ_e; cbn [list_set filter].
    destruct (is_occ e), (is_occ e'); cbn; lia.
  - specialize (IH i H). unfold count_occ_e in *; cbn [list_set filter].
    destruct (is_occ h); cbn [length]; lia.
Qed.

(** *** reserve *)
Definition fresh_slots (start extra : nat) (old : option nat) : list (entry A) :=
  map (fun i => if Nat.eqb (S i) (start + extra) then Free old else Free (Some (S i)))
      (seq start extra).

Lemma fresh_nth start extra old i :
  start <= i < start + extra ->
  nth_error (fresh_slots start extra old) (i - start) =
  Some (if Nat.eqb (S i) (start + extra) then Free old else Free (Some (S i))).
Proof.
  intros H. unfold fresh_slots.
  assert (E : nth_error (seq start extra) (i - start) = Some i).
  { rewrite (nth_error_nth' _ 0) by (rewrite seq_length; lia).
    rewrite seq_nth by lia. f_equal. lia. }
  rewrite (map_nth_error _ _ _ E). reflexivity.
Qed.

Lemma fresh_length start extra old : length (fresh_slots start extra old) = extra.
Proof. unfold fresh_slots. rewrite map_length, seq_length. reflexivity. Qed.

Lemma fresh_all_free start extra old e :
  In e (fresh_slots start extra old) -> exists nf, e = Free nf.
Proof.
  unfold fresh_slots. rewrite in_map_iff. intros [i [He _]].
  destruct (Nat.eqb (S i) (start + extra)); eauto.
Qed.

Lemma fresh_count start extra old : count_occ_e (fresh_slots start extra old) = 0.
Proof.
  unfold count_occ_e.
  assert (H : forall e, In e (fresh_slots start extra old) -> is_occ e = false).
  { intros e He. destruct (fresh_all_free _ _ _ _ He) as [nf ->]. reflexivity. }
  induction (fresh_slots start extra old) as [|e t IH]; cbn; auto.
  rewrite (H e (or_introl eq_refl)). apply IH. intros e' He'. apply H. right; auto.
Qed.

Lemma chain_fresh l extra old fl k :
  length l <= k -> k <= length l + extra ->
  chain l old fl ->
  chain (l ++ fresh_slots (length l) extra old)
        (if Nat.eqb k (length l + extra) then old else Some k)
        (seq k (length l + extra - k) ++ fl).
Proof.
  intros Hk1 Hk2 Hc.
  remember (length l + extra - k) as n eqn:Hn.
  revert k Hk1 Hk2 Hn; induction n as [|n IH]; intros k Hk1 Hk2 Hn.
  - assert (k = length l + extra) by lia. subst k. rewrite Nat.eqb_refl. cbn [seq app].
    apply chain_ext with (l := l); auto.
    intros i Hi. apply nth_error_app1.
    clear -Hc Hi. revert old Hc Hi; induction fl as [|j t IH]; cbn; intros old Hc Hi; [tauto|].
    destruct Hc as [_ [nf [Hn Hc]]]. destruct Hi as [->|Hi]; [eapply nth_error_lt; eauto|].
    eapply IH; eauto.
  - destruct (Nat.eqb_spec k (length l + extra)) as [E|E]; [lia|].
    cbn [seq app chain]. split; auto.
    exists (if Nat.eqb (S k) (length l + extra) then old else Some (S k)).
    split.
    + rewrite nth_error_app2 by lia. rewrite fresh_nth by lia.
      destruct (Nat.eqb (S k) (length l + extra)); reflexivity.
    + apply IH; lia.
Qed.

Lemma reserve_items a k : items (reserve a k) = items a ++ fresh_slots (length (items a)) k (free_head a).
Proof. reflexivity. Qed.

Lemma reserve_nth_old a k i :
  i < length (items a) -> nth_error (items (reserve a k)) i = nth_error (items a) i.
Proof. intros H. rewrite reserve_items. apply nth_error_app1; assumption. Qed.

Lemma reserve_nth_new a k i e :
  length (items a) <= i -> nth_error (items (reserve a k)) i = Some e -> exists nf, e = Free nf.
Proof.
  intros H Hn. rewrite reserve_items, nth_error_app2 in Hn by assumption.
  apply nth_error_In in Hn. eapply fresh_all_free; eauto.
Qed.

(** The invariant holds of [reserve] even on the empty vector. *)
Record ainv0 (a : arena A) : Prop := {
  ai0_free : exists fl, NoDup fl /\ chain (items a) (free_head a) fl /\
            (forall i, In i fl <-> exists nf, nth_error (items a) i = Some (Free nf));
  ai0_gen : forall i g v, nth_error (items a) i = Some (Occ g v) -> (g <= agen a)%N;
  ai0_len : alen a = count_occ_e (items a)
}.

Lemma reserve_inv a k : ainv0 a -> 0 < k -> ainv (reserve a k).
Proof.
  intros [[fl [Hnd [Hc Hin]]] Hg Hl] Hk. constructor.
  - exists (seq (length (items a)) k ++ fl).
    assert (Hlt : forall i, In i fl -> i < length (items a)).
    { intros i Hi. apply Hin in Hi. destruct Hi as [nf Hi]. eapply nth_error_lt; eauto. }
    split; [|split].
    + 
      clear -Hnd Hlt.
      assert (forall i, In i (seq (length (items a)) k) -> ~ In i fl).
      { intros i Hi Hf. apply in_seq in Hi. specialize (Hlt i Hf). lia. }
      revert H. generalize (seq_NoDup k (length (items a))).
      induction (seq (length (items a)) k) as [|x s IH]; cbn; intros Hs H; auto.
      inversion Hs; subst. constructor.
      * rewrite in_app_iff. intros [?|?]; [tauto | eapply H; eauto].
      * apply IH; auto.
    + pose proof (chain_fresh (items a) k (free_head a) fl (length (items a)) (le_n _) ltac:(lia) Hc) as H.
      destruct (Nat.eqb_spec (length (items a)) (length (items a) + k)) as [E|E]; [lia|].
      replace (length (items a) + k - length (items a)) with k in H by lia.
      exact H.
    + intros i. rewrite in_app_iff, in_seq. split.
      * intros [Hi|Hi].
        -- rewrite reserve_items. rewrite nth_error_app2 by lia.
           rewrite fresh_nth by lia. destruct (Nat.eqb _ _); eauto.
        -- rewrite reserve_nth_old by auto. apply Hin; auto.
      * intros [nf Hi]. destruct (Nat.lt_ge_cases i (length (items a))) as [Hi'|Hi'].
        -- right. apply Hin. rewrite reserve_nth_old in Hi by auto. eauto.
        -- left. apply nth_error_lt in Hi. rewrite reserve_items, app_length, fresh_length in Hi. lia.
  - intros i g v Hn. destruct (Nat.lt_ge_cases i (length (items a))) as [Hi'|Hi'].
    + rewrite reserve_nth_old in Hn by auto. eapply Hg; eauto.
    + apply reserve_nth_new in Hn; auto. destruct Hn; discriminate.
  - rewrite reserve_items, count_occ_app, fresh_count. cbn. lia.
  - rewrite reserve_items, app_length, fresh_length. lia.
Qed.

Lemma ainv_ainv0 a : ainv a -> ainv0 a.
Proof. intros [H1 H2 H3 _]. constructor; auto. Qed.

Lemma with_capacity_inv n : ainv (with_capacity (A := A) n).
Proof.
  unfold with_capacity. apply reserve_inv; [|lia].
  constructor; cbn.
  - exists []. split; [constructor|]. split; [reflexivity|].
    intros i; split; [intros []|]. intros [nf H]. destruct i; discriminate.
  - intros [|i] g v H; discriminate.
  - reflexivity.
Qed.

Lemma arena_new_inv : ainv (arena_new (A := A)).
Proof. apply with_capacity_inv. Qed.

Lemma reserve_get a k h : get (reserve a k) h = get a h.
Proof.
  unfold get. destruct (Nat.lt_ge_cases (ix h) (length (items a))) as [Hi|Hi].
  - rewrite reserve_nth_old by auto. reflexivity.
  - assert (E : nth_error (items a) (ix h) = None) by (apply nth_error_None; auto).
    rewrite E. destruct (nth_error (items (reserve a k)) (ix h)) as [e|] eqn:En; auto.
    apply reserve_nth_new in En; auto. destruct En as [nf ->]. reflexivity.
Qed.

Lemma with_capacity_get n h : get (with_capacity (A := A) n) h = None.
Proof.
  unfold with_capacity. rewrite reserve_get. unfold get; cbn. destruct (ix h); reflexivity.
Qed.

Lemma arena_new_get h : get (arena_new (A := A)) h = None.
Proof. apply with_capacity_get. Qed.

(** *** insert *)
Definition used (a : arena A) : nat := count_occ_e (items a).

Lemma chain_lt_len l head fl i : chain l head fl -> In i fl -> i < length l.
Proof.
  revert head; induction fl as [|j t IH]; cbn; intros head Hc Hi; [tauto|].
  destruct Hc as [_ [nf [Hn Hc]]]. destruct Hi as [->|Hi]; [eapply nth_error_lt; eauto|].
  eapply IH; eauto.
Qed.

(** What [try_insert] does on a well-formed arena. *)
Lemma try_insert_spec a v :
  ainv0 a ->
  (free_head a = None /\ try_insert a v = Ok None) \/
  (exists i nf a', free_head a = Some i /\ nth_error (items a) i = Some (Free nf) /\
     a' = mkArena (list_set (items a) i (Occ (agen a) v)) (agen a) nf (S (alen a)) /\
     try_insert a v = Ok (Some (a', mkIndex i (agen a))) /\ ainv a').
Proof.
  intros [[fl [Hnd [Hc Hin]]] Hg Hl].
  unfold try_insert. destruct fl as [|i t]; cbn in Hc.
  - left. rewrite Hc. auto.
  - right. destruct Hc as [Hh [nf [Hn Hc]]]. rewrite Hh, Hn.
    pose proof (nth_error_lt _ _ _ Hn) as Hi.
    inversion Hnd as [|? ? Hni Hnd']; subst.
    eexists i, nf, _. repeat split; auto; cbn.
    + exists t. split; [auto|]. split.
      * apply chain_ext with (l := items a); auto.
        intros j Hj. apply nth_error_list_set_neq. intros ->; tauto.
      * intros j. rewrite nth_error_list_set. destruct (Nat.eqb_spec i j) as [->|Hne].
        -- destruct (Nat.ltb j (length (items a))); split; intros Hx; try tauto;
             destruct Hx as [? Hx]; discriminate.
        -- rewrite <- Hin. cbn. split; [tauto|]. intros [?|?]; [congruence|auto].
    + intros j g w. rewrite nth_error_list_set. destruct (Nat.eqb_spec i j) as [->|Hne].
      * destruct (Nat.ltb j (length (items a))); [|discriminate].
        intros H; injection H as <- <-. lia.
      * apply Hg.
    + pose proof (count_occ_set (items a) i (Free nf) (Occ (agen a) v) Hn) as H.
      cbn in H. lia.
    + rewrite list_set_length. lia.
Qed.

Lemma free_none_full a : ainv a -> free_head a = None -> used a = length (items a).
Proof.
  intros [[fl [_ [Hc Hin]]] _ _ _] Hh. destruct fl as [|i t]; cbn in Hc; [|destruct Hc; congruence].
  unfold used, count_occ_e.
  assert (H : forall e, In e (items a) -> is_occ e = true).
  { intros e He. destruct e as [nf|g v]; auto. exfalso.
    apply In_nth_error in He. destruct He as [i Hi]. apply (Hin i). eauto. }
  induction (items a) as [|e t IH]; cbn; auto.
  rewrite (H e (or_introl eq_refl)). cbn. f_equal. apply IH.
  - intros i. split; [intros []|]. intros [nf Hnf]. specialize (H (Free nf)).
    discriminate H. right. eapply nth_error_In; eauto.
  - intros e' He'. apply H. right; auto.
Qed.

Lemma free_some_room a i : ainv a -> free_head a = Some i -> used a < length (items a).
Proof.
  intros [[fl [_ [Hc Hin]]] _ _ _] Hh. destruct fl as [|j t]; cbn in Hc; [congruence|].
  destruct Hc as [_ [nf [Hn _]]]. clear Hin Hh.
  unfold used, count_occ_e.
  revert j Hn; induction (items a) as [|e l IH]; intros [|j] Hn; cbn in Hn; try discriminate.
  - injection Hn as ->. cbn. apply le_n_S.
    clear. induction l as [|e l IH]; cbn; auto. destruct (is_occ e); cbn; lia.
  - specialize (IH j Hn). cbn. destruct (is_occ e); cbn; lia.
Qed.

(** Full characterisation of [insert] on a well-formed arena. *)
Lemma insert_spec a v :
  ainv a ->
  exists a' h,
    insert a v = Ok (a', h) /\ ainv a' /\
    gen h = agen a /\ agen a' = agen a /\
    get a h = None /\
    (forall h', get a' h' = if index_eqb h h' then Some v else get a h') /\
    length (items a') = (if Nat.ltb (used a) (length (items a)) then length (items a)
                         else 2 * length (items a)) /\
    (forall i g w, nth_error (items a) i = Some (Occ g w) ->
                   nth_error (items a') i = Some (Occ g w)).
Proof.
  intros Hinv.
  assert (Hget : forall a0 i nf v0, nth_error (items a0) i = Some (Free nf) ->
            forall h', get (mkArena (list_set (items a0) i (Occ (agen a0) v0)) (agen a0) nf (S (alen a0))) h'
            = if index_eqb (mkIndex i (agen a0)) h' then Some v0 else get a0 h').
  { intros a0 i nf v0 Hn h'. unfold get; cbn. rewrite nth_error_list_set.
    pose proof (nth_error_lt _ _ _ Hn) as Hi.
    unfold index_eqb; cbn. destruct (Nat.eqb_spec i (ix h')) as [->|Hne]; cbn.
    - destruct (Nat.ltb_spec (ix h') (length (items a0))); [|lia].
      destruct (N.eqb (agen a0) (gen h')); auto. rewrite Hn. reflexivity.
    - reflexivity. }
  destruct (try_insert_spec a v (ainv_ainv0 _ Hinv)) as [[Hh Ht]|[i [nf [a' [Hh [Hn [Ea [Ht Hi]]]]]]]].
  - (* slow path *)
    unfold insert. rewrite Ht.
    set (n := length (items a)).
    assert (Hpos : 0 < n) by apply (ai_nonempty _ Hinv).
    destruct (Nat.eqb_spec n 0) as [E|_]; [lia|].
    pose proof (reserve_inv a n (ainv_ainv0 _ Hinv) Hpos) as Hr.
    destruct (try_insert_spec (reserve a n) v (ainv_ainv0 _ Hr)) as [[Hh' _]|[i [nf [a' [Hh' [Hn [Ea [Ht' Hi]]]]]]]].
    { discriminate Hh'. }
    assert (i = n) by (injection Hh' as <-; reflexivity). subst i.
    rewrite Ht'. exists a', (mkIndex n (agen (reserve a n))).
    split; [reflexivity|]. split; [assumption|].
    split; [reflexivity|]. split; [subst a'; reflexivity|].
    split; [|split; [|split]].
    + unfold get; cbn. replace (nth_error (items a) n) with (@None (entry A)); auto.
      symmetry. apply nth_error_None. subst n. lia.
    + intros h'. subst a'. rewrite Hget by assumption. rewrite reserve_get. reflexivity.
    + subst a'. unfold items at 1. rewrite list_set_length.
      rewrite reserve_items, app_length, fresh_length.
      rewrite (free_none_full a Hinv Hh). rewrite Nat.ltb_irrefl. subst n; lia.
    + intros j g w Hj. pose proof (nth_error_lt _ _ _ Hj) as Hlt.
      subst a'. unfold items at 1. rewrite nth_error_list_set_neq by (subst n; lia).
      rewrite reserve_nth_old; auto.
  - unfold insert. rewrite Ht. exists a', (mkIndex i (agen a)).
    split; [reflexivity|]. split; [assumption|].
    split; [reflexivity|]. split; [subst a'; reflexivity|].
    split; [|split; [|split]].
    + unfold get; cbn. rewrite Hn. reflexivity.
    + intros h'. subst a'. rewrite Hget by assumption. reflexivity.
    + subst a'. unfold items at 1. rewrite list_set_length.
      pose proof (free_some_room a i Hinv Hh) as H.
      destruct (Nat.ltb_spec (used a) (length (items a))); lia.
    + intros j g w Hj. subst a'. unfold items at 1.
      rewrite nth_error_list_set_neq; auto. intros <-. congruence.
Qed.

Lemma get_nth a h v : get a h = Some v <-> nth_error (items a) (ix h) = Some (Occ (gen h) v).
Proof.
  unfold get. destruct (nth_error (items a) (ix h)) as [[nf|g w]|]; split; try discriminate.
  - destruct (N.eqb_spec g (gen h)); [|discriminate]. intros H; injection H as ->. subst; auto.
  - intros H; injection H as -> ->. rewrite N.eqb_refl. reflexivity.
Qed.

(** *** set *)
Lemma set_spec a h v a' :
  ainv a -> set a h v = Some a' ->
  ainv a' /\ (exists old, get a h = Some old) /\ agen a' = agen a /\
  length (items a') = length (items a) /\
  (forall h', get a' h' = if index_eqb h h' then Some v else get a h').
Proof.
  intros Hinv Hs. unfold set in Hs. destruct (get a h) as [old|] eqn:Hg; [|discriminate].
  injection Hs as <-. pose proof Hg as Hg'. apply get_nth in Hg.
  pose proof (nth_error_lt _ _ _ Hg) as Hi.
  destruct Hinv as [[fl [Hnd [Hc Hin]]] Hgen Hl Hne].
  split; [|split; [eauto|split; [reflexivity|split]]].
  - constructor; cbn.
    + exists fl. split; [auto|]. split.
      * apply chain_ext with (l := items a); auto. intros j Hj.
        apply nth_error_list_set_neq. intros <-. apply Hin in Hj. destruct Hj; congruence.
      * intros j. rewrite Hin. rewrite nth_error_list_set.
        destruct (Nat.eqb_spec (ix h) j) as [<-|?]; [|tauto].
        rewrite Hg. destruct (Nat.ltb_spec (ix h) (length (items a))); [|lia].
        split; intros [? ?]; discriminate.
    + intros j g w. rewrite nth_error_list_set. destruct (Nat.eqb_spec (ix h) j) as [<-|?]; [|apply Hgen].
      destruct (Nat.ltb_spec (ix h) (length (items a))); [|discriminate].
      intros E; injection E as <- <-. eapply Hgen; eauto.
    + pose proof (count_occ_set (items a) (ix h) _ (Occ (gen h) v) Hg) as H'. cbn in H'. lia.
    + rewrite list_set_length; auto.
  - cbn. apply list_set_length.
  - intros h'. unfold get at 1; cbn. rewrite nth_error_list_set.
    destruct (Nat.ltb_spec (ix h) (length (items a))); [|lia].
    unfold index_eqb. destruct (Nat.eqb_spec (ix h) (ix h')) as [E|E]; cbn.
    + destruct (N.eqb_spec (gen h) (gen h')) as [E'|E']; [reflexivity|].
      unfold get. rewrite <- E, Hg. destruct (N.eqb_spec (gen h) (gen h')); congruence.
    + reflexivity.
Qed.

Lemma set_none a h v : set a h v = None <-> get a h = None.
Proof. unfold set. destruct (get a h); split; congruence. Qed.

(** *** remove *)
Lemma remove_none a h : get a h = None -> aremove a h = (a, None).
Proof.
  unfold get, aremove. destruct (nth_error (items a) (ix h)) as [[nf|g w]|]; auto.
  destruct (N.eqb g (gen h)); [discriminate|auto].
Qed.

Lemma remove_spec a h v :
  ainv a -> get a h = Some v ->
  exists a', aremove a h = (a', Some v) /\ ainv a' /\ agen a' = (agen a + 1)%N /\
    (gen h <= agen a)%N /\ length (items a') = length (items a) /\
    (forall h', get a' h' = if index_eqb h h' then None else get a h').
Proof.
  intros Hinv Hg. pose proof Hg as Hg'. apply get_nth in Hg.
  pose proof (nth_error_lt _ _ _ Hg) as Hi.
  unfold aremove. rewrite Hg, N.eqb_refl. eexists. split; [reflexivity|].
  destruct Hinv as [[fl [Hnd [Hc Hin]]] Hgen Hl Hne].
  assert (Hnin : ~ In (ix h) fl).
  { intros Hx. apply Hin in Hx. destruct Hx; congruence. }
  split; [|split; [reflexivity|split; [eapply Hgen; eauto|split]]].
  - constructor; cbn.
    + exists (ix h :: fl). split; [constructor; auto|]. split.
      * cbn. split; auto. exists (free_head a). split.
        -- apply nth_error_list_set_eq; auto.
        -- apply chain_ext with (l := items a); auto. intros j Hj.
           apply nth_error_list_set_neq. intros <-; tauto.
      * intros j. cbn. rewrite nth_error_list_set.
        destruct (Nat.eqb_spec (ix h) j) as [<-|Hne'].
        -- destruct (Nat.ltb_spec (ix h) (length (items a))); [|lia]. split; eauto.
        -- rewrite <- Hin. split; [intros [?|?]; [congruence|auto] | auto].
    + intros j g w. rewrite nth_error_list_set. destruct (Nat.eqb_spec (ix h) j) as [<-|?].
      * destruct (Nat.ltb (ix h) (length (items a))); discriminate.
      * intros E. apply Hgen in E. lia.
    + pose proof (count_occ_set (items a) (ix h) _ (Free (free_head a)) Hg) as H'. cbn in H'. lia.
    + rewrite list_set_length; auto.
  - cbn. apply list_set_length.
  - intros h'. unfold get at 1; cbn. rewrite nth_error_list_set.
    unfold index_eqb. destruct (Nat.eqb_spec (ix h) (ix h')) as [E|E]; cbn.
    + destruct (Nat.ltb_spec (ix h) (length (items a))); [|lia].
      destruct (N.eqb_spec (gen h) (gen h')) as [E'|E']; [reflexivity|].
      unfold get. rewrite <- E, Hg. destruct (N.eqb_spec (gen h) (gen h')); congruence.
    + reflexivity.
Qed.

(** *** iteration *)
Lemma iter_from_in k l h v :
  In (h, v) (iter_from k l) <-> (k <= ix h /\ nth_error l (ix h - k) = Some (Occ (gen h) v)).
Proof.
  revert k; induction l as [|e t IH]; intros k; cbn.
  - split; [tauto|]. intros [_ H]. destruct (ix h - k); discriminate.
  - destruct e as [nf|g w]; cbn; [|]; rewrite IH.
    + split.
      * intros [Hk Hn]. split; [lia|]. replace (ix h - k) with (S (ix h - S k)) by lia. exact Hn.
      * intros [Hk Hn]. destruct (ix h - k) as [|m] eqn:E; [discriminate|].
        cbn in Hn. split; [lia|]. replace (ix h - S k) with m by lia. exact Hn.
    + split.
      * intros [E|[Hk Hn]].
        -- injection E as <- <-. cbn. split; [lia|]. rewrite Nat.sub_diag. reflexivity.
        -- split; [lia|]. replace (ix h - k) with (S (ix h - S k)) by lia. exact Hn.
      * intros [Hk Hn]. destruct (ix h - k) as [|m] eqn:E.
        -- left. cbn in Hn. injection Hn as -> ->. destruct h as [i gg]; cbn in *.
           f_equal. f_equal. lia.
        -- right. cbn in Hn. split; [lia|]. replace (ix h - S k) with m by lia. exact Hn.
Qed.

Lemma iter_in a h v : In (h, v) (aiter a) <-> get a h = Some v.
Proof.
  unfold aiter. rewrite iter_from_in, get_nth, Nat.sub_0_r. split; [tauto|]. split; [lia|auto].
Qed.

Lemma iter_from_increasing k l : slots_increasing (iter_from k l).
Proof.
  revert k; induction l as [|e t IH]; intros k; cbn; auto.
  destruct e as [nf|g w]; cbn; auto. split; auto.
  intros h' v' H. apply iter_from_in in H. lia.
Qed.

Lemma slots_increasing_nodup (l : list (index * A)) : slots_increasing l -> NoDup (map fst l).
Proof.
  induction l as [|[h v] t IH]; cbn; [constructor|]. intros [H1 H2]. constructor; auto.
  intros Hin. apply in_map_iff in Hin. destruct Hin as [[h' v'] [E Hin]]. cbn in E. subst h'.
  specialize (H1 h v' Hin). lia.
Qed.

Lemma iter_enumerates a : enumerates (get a) (aiter a).
Proof.
  split; [apply slots_increasing_nodup, iter_from_increasing | apply iter_in].
Qed.

Lemma iter_from_length k l : length (iter_from k l) = count_occ_e l.
Proof.
  revert k; induction l as [|e t IH]; intros k; cbn; auto.
  unfold count_occ_e in *. destruct e; cbn; rewrite ?IH; reflexivity.
Qed.

Lemma iter_length a : ainv a -> length (aiter a) = len a.
Proof. intros H. unfold aiter, len. rewrite iter_from_length. symmetry. apply ai_len; auto. Qed.

Lemma used_le a : used a <= length (items a).
Proof. unfold used, count_occ_e. generalize (items a). clear. induction l as [|e l IH]; cbn; [lia|]. destruct (is_occ e); cbn; lia. Qed.

Lemma enumerates_length (m : index -> option A) (l1 l2 : list (index * A)) :
  enumerates m l1 -> enumerates m l2 -> length l1 = length l2.
Proof.
  intros [N1 H1] [N2 H2].
  assert (forall x (l : list (index * A)), NoDup (map fst l) -> (forall h v, In (h, v) l <-> m h = Some v) ->
          In x (map fst l) <-> m x <> None) as Hk.
  { intros x l _ H. rewrite in_map_iff. split.
    - intros [[h v] [E Hin]]. cbn in E; subst. apply H in Hin. congruence.
    - destruct (m x) as [v|] eqn:E; [|congruence]. intros _. exists (x, v). split; auto. apply H; auto. }
  assert (P : Permutation (map fst l1) (map fst l2)).
  { apply NoDup_Permutation; auto. intros x. rewrite (Hk x l1), (Hk x l2); tauto. }
  apply Permutation_length in P. rewrite !map_length in P. exact P.
Qed.

(** ** The refinement relation *)
Record arel (a : arena A) (m : hmap A) : Prop := {
  ar_inv : ainv a;
  ar_live : forall h, live m h = get a h;
  ar_issued_dead : forall h, issued m h -> (gen h <= agen a)%N /\ (get a h <> None \/ (gen h < agen a)%N);
  ar_live_issued : forall h, get a h <> None -> issued m h;
  ar_cap : cap m = length (items a)
}.

Lemma enumerates_ext (m m' : index -> option A) (l : list (index * A)) :
  (forall h, m h = m' h) -> enumerates m l -> enumerates m' l.
Proof. intros E [H1 H2]. split; auto. intros h v. rewrite H2, E. tauto. Qed.

Lemma astep_refines a m o :
  arel a m -> aop_ok o ->
  exists m', hstep m o (snd (astep a o)) m' /\ arel (fst (astep a o)) m'.
Proof.
  intros [Hinv Hlive Hdead Hli Hcap] Hok.
  assert (Henum : enumerates (live m) (aiter a)).
  { eapply enumerates_ext; [|apply iter_enumerates]. intros; symmetry; auto. }
  assert (Hsame : arel a m) by (constructor; auto).
  destruct o as [v|h|h v|h|h|k| | | |]; cbn [astep].
  - (* insert *)
    destruct (insert_spec a v Hinv) as [a' [h [Hi [Hinv' [Hgh [Hga [Hno [Hget [Hlen _]]]]]]]]].
    rewrite Hi. cbn.
    exists (mkHmap (get a') (fun h' => issued m h' \/ h' = h) (length (items a'))). split.
    + eapply h_insert with (l := aiter a); cbn.
      * intros Hx. apply Hdead in Hx. destruct Hx as [_ [Hx|Hx]]; [congruence|lia].
      * rewrite Hget, index_eqb_refl. reflexivity.
      * intros h' Hne. rewrite Hget, Hlive. destruct (index_eqb_spec h h'); congruence.
      * tauto.
      * exact Henum.
      * rewrite Hlen, Hcap, iter_length by auto. unfold len. rewrite (ai_len _ Hinv). reflexivity.
    + constructor; cbn; auto.
      * intros h' [Hx|Hx].
        -- apply Hdead in Hx. rewrite Hga. split; [tauto|]. destruct Hx as [? [?|?]]; [left|right; auto].
           rewrite Hget. destruct (index_eqb h h'); congruence.
        -- subst h'. rewrite Hget, index_eqb_refl, Hga, Hgh. split; [lia|]. left; congruence.
      * intros h'. rewrite Hget. destruct (index_eqb_spec h h'); [subst; auto|]. intros Hx. left. auto.
  - exists m. split; [rewrite <- Hlive; constructor | auto].
  - (* set *)
    destruct (set a h v) as [a'|] eqn:Hs; cbn.
    + destruct (set_spec a h v a' Hinv Hs) as [Hinv' [[old Hold] [Hga [Hlen Hget]]]].
      exists (mkHmap (get a') (issued m) (length (items a'))). split.
      * eapply h_set_live with (old := old); cbn; auto.
        -- rewrite Hlive; auto.
        -- rewrite Hget, index_eqb_refl; auto.
        -- intros h' Hne. rewrite Hget, Hlive. destruct (index_eqb_spec h h'); congruence.
        -- tauto.
        -- congruence.
      * constructor; cbn; auto.
        -- intros h' Hx. apply Hdead in Hx. rewrite Hga. split; [tauto|].
           destruct Hx as [? [?|?]]; [left|right; auto]. rewrite Hget.
           destruct (index_eqb h h'); congruence.
        -- intros h'. rewrite Hget. destruct (index_eqb_spec h h'); [subst; intros _; apply Hli; congruence|auto].
    + exists m. split; auto. constructor. rewrite Hlive. apply set_none in Hs; auto.
  - (* remove *)
    destruct (get a h) as [v|] eqn:Hg.
    + destruct (remove_spec a h v Hinv Hg) as [a' [Hr [Hinv' [Hga [Hgl [Hlen Hget]]]]]].
      rewrite Hr. cbn.
      exists (mkHmap (get a') (issued m) (length (items a'))). split.
      * rewrite <- Hg, <- Hlive. constructor; cbn; auto.
        -- rewrite Hget, index_eqb_refl; auto.
        -- intros h' Hne. rewrite Hget, Hlive. destruct (index_eqb_spec h h'); congruence.
        -- tauto.
        -- congruence.
      * constructor; cbn; auto.
        -- intros h' Hx. apply Hdead in Hx. rewrite Hga. split; [lia|right; lia].
        -- intros h'. rewrite Hget. destruct (index_eqb h h'); [congruence|auto].
    + rewrite remove_none by auto. cbn. exists m. split; auto.
      rewrite <- Hg, <- Hlive. constructor; auto.
      * rewrite Hlive; auto.
      * tauto.
  - exists m. split; auto. unfold contains. rewrite <- Hlive. constructor.
  - (* reserve *)
    exists (mkHmap (live m) (issued m) (cap m + k)). split; [constructor; cbn; tauto|].
    constructor; cbn -[reserve]; auto.
    + apply reserve_inv; [apply ainv_ainv0; auto | auto].
    + intros h. rewrite reserve_get. auto.
    + intros h Hx. rewrite reserve_get. apply Hdead; auto.
    + intros h. rewrite reserve_get. auto.
    + rewrite reserve_items, app_length, fresh_length. lia.
  - exists m. split; auto. cbn. constructor; auto. apply iter_from_increasing.
  - exists m. split; auto. cbn. rewrite <- iter_length by auto. constructor; auto.
    rewrite Hcap, iter_length by auto. unfold len. rewrite (ai_len _ Hinv). apply used_le.
  - exists m. split; auto. cbn. unfold is_empty. fold (len a). rewrite <- iter_length by auto.
    constructor; auto.
  - exists m. split; auto. cbn. unfold capacity. rewrite <- Hcap. constructor.
Qed.

Lemma arun_refines os : forall a m,
  arel a m -> Forall aop_ok os -> hrun m os (arun a os).
Proof.
  induction os as [|o t IH]; intros a m Hr Hok; cbn; [constructor|].
  inversion Hok; subst.
  destruct (astep_refines a m o Hr H1) as [m' [Hs Hr']].
  destruct (astep a o) as [a' r] eqn:E. cbn in *.
  econstructor; eauto.
Qed.

Lemma with_capacity_rel n : arel (with_capacity n) (hempty (Nat.max n 1)).
Proof.
  constructor; cbn -[with_capacity].
  - apply with_capacity_inv.
  - intros h. rewrite with_capacity_get. reflexivity.
  - tauto.
  - intros h. rewrite with_capacity_get. congruence.
  - unfold with_capacity. rewrite reserve_items, app_length, fresh_length. reflexivity.
Qed.

Lemma arena_history_refines n (os : list (aop A)) :
  Forall aop_ok os -> hrun (hempty (Nat.max n 1)) os (arun (with_capacity n) os).
Proof. intros H. apply arun_refines; auto. apply with_capacity_rel. Qed.

Lemma afinal_inv os : forall a, ainv a -> Forall aop_ok os -> ainv (afinal a os).
Proof.
  induction os as [|o t IH]; intros a Ha Hok; cbn; auto. inversion Hok; subst.
  apply IH; auto.
  destruct (astep_refines a (mkHmap (get a) (fun h => get a h <> None) (length (items a))) o) as [m' [_ Hr]].
  - constructor; cbn; auto. intros h Hh. split; [|left; auto].
    destruct (get a h) as [v|] eqn:E; [|congruence]. apply get_nth in E. eapply ai_gen; eauto.
  - auto.
  - apply ar_inv in Hr. auto.
Qed.

(** ** A handle that stopped resolving stays dead *)
Definition dead (a : arena A) (h : index) : Prop := get a h = None /\ (gen h < agen a)%N.

Lemma dead_insert a v a' h' h : ainv a -> insert a v = Ok (a', h') -> dead a h -> dead a' h.
Proof.
  intros Hinv Hi [Hn Hg].
  destruct (insert_spec a v Hinv) as [a1 [h1 [Hi1 [_ [Hgh [Hga [_ [Hget _]]]]]]]].
  rewrite Hi in Hi1. injection Hi1 as <- <-.
  split; [|lia]. rewrite Hget. destruct (index_eqb_spec h' h); [subst; lia|auto].
Qed.

Lemma dead_set a h1 v a' h : ainv a -> set a h1 v = Some a' -> dead a h -> dead a' h.
Proof.
  intros Hinv Hs [Hn Hg].
  destruct (set_spec a h1 v a' Hinv Hs) as [_ [[old Hold] [Hga [_ Hget]]]].
  split; [|lia]. rewrite Hget. destruct (index_eqb_spec h1 h); [congruence|auto].
Qed.

Lemma dead_remove a h1 h : ainv a -> dead a h -> dead (fst (aremove a h1)) h.
Proof.
  intros Hinv [Hn Hg]. destruct (get a h1) as [v|] eqn:E.
  - destruct (remove_spec a h1 v Hinv E) as [a' [Hr [_ [Hga [_ [_ Hget]]]]]].
    rewrite Hr. cbn. split; [|lia]. rewrite Hget. destruct (index_eqb h1 h); auto.
  - rewrite remove_none by auto. split; auto.
Qed.

Lemma removed_dead a h v : ainv a -> get a h = Some v -> dead (fst (aremove a h)) h.
Proof.
  intros Hinv Hg. destruct (remove_spec a h v Hinv Hg) as [a' [Hr [_ [Hga [Hle [_ Hget]]]]]].
  rewrite Hr. cbn. split; [|lia]. rewrite Hget, index_eqb_refl. reflexivity.
Qed.

Lemma remove_inv a h : ainv a -> ainv (fst (aremove a h)).
Proof.
  intros Hinv. destruct (get a h) as [v|] eqn:E.
  - destruct (remove_spec a h v Hinv E) as [a' [Hr [Hi _]]]. rewrite Hr. exact Hi.
  - rewrite remove_none by auto. exact Hinv.
Qed.

Lemma insert_inv a v a' h : ainv a -> insert a v = Ok (a', h) -> ainv a'.
Proof.
  intros Hinv Hi. destruct (insert_spec a v Hinv) as [a1 [h1 [Hi1 [Hinv' _]]]].
  rewrite Hi in Hi1. injection Hi1 as <- <-. exact Hinv'.
Qed.

Lemma set_inv a h v a' : ainv a -> set a h v = Some a' -> ainv a'.
Proof. intros Hinv Hs. apply (set_spec a h v a' Hinv Hs). Qed.

Lemma insert_get a v a' h h' :
  ainv a -> insert a v = Ok (a', h) ->
  get a' h' = if index_eqb h h' then Some v else get a h'.
Proof.
  intros Hinv Hi. destruct (insert_spec a v Hinv) as [a1 [h1 [Hi1 [_ [_ [_ [_ [Hget _]]]]]]]].
  rewrite Hi in Hi1. injection Hi1 as <- <-. apply Hget.
Qed.

Lemma insert_fresh a v a' h : ainv a -> insert a v = Ok (a', h) -> get a h = None.
Proof.
  intros Hinv Hi. destruct (insert_spec a v Hinv) as [a1 [h1 [Hi1 [_ [_ [_ [Hn _]]]]]]].
  rewrite Hi in Hi1. injection Hi1 as <- <-. exact Hn.
Qed.

Lemma insert_not_dead a v a' h : ainv a -> insert a v = Ok (a', h) -> ~ dead a h.
Proof.
  intros Hinv Hi [_ Hd]. destruct (insert_spec a v Hinv) as [a1 [h1 [Hi1 [_ [Hg _]]]]].
  rewrite Hi in Hi1. injection Hi1 as <- <-. lia.
Qed.

Lemma insert_ok a v : ainv a -> exists a' h, insert a v = Ok (a', h).
Proof. intros Hinv. destruct (insert_spec a v Hinv) as [a' [h [Hi _]]]. eauto. Qed.

Lemma set_get a h v a' h' :
  ainv a -> set a h v = Some a' -> get a' h' = if index_eqb h h' then Some v else get a h'.
Proof. intros Hinv Hs. apply (set_spec a h v a' Hinv Hs). Qed.

Lemma remove_get a h h' :
  ainv a -> get (fst (aremove a h)) h' = if index_eqb h h' then None else get a h'.
Proof.
  intros Hinv. destruct (get a h) as [v|] eqn:E.
  - destruct (remove_spec a h v Hinv E) as [a' [Hr [_ [_ [_ [_ Hget]]]]]]. rewrite Hr. apply Hget.
  - rewrite remove_none by auto. cbn. destruct (index_eqb_spec h h'); [subst; auto|auto].
Qed.

Lemma remove_snd a h : snd (aremove a h) = get a h.
Proof.
  unfold aremove, get. destruct (nth_error (items a) (ix h)) as [[nf|g w]|]; auto.
  destruct (N.eqb g (gen h)); auto.
Qed.

Lemma astep_inv a o : ainv a -> aop_ok o -> ainv (fst (astep a o)).
Proof.
  intros Ha Hok. apply (afinal_inv [o] a Ha). constructor; auto.
Qed.

Lemma astep_dead a o h : ainv a -> dead a h -> dead (fst (astep a o)) h.
Proof.
  intros Hinv Hd. destruct o; cbn [astep]; auto.
  - destruct (insert_ok a v Hinv) as [a' [h' Hi]]. rewrite Hi. cbn. eapply dead_insert; eauto.
  - destruct (set a h0 v) eqn:E; cbn; auto. eapply dead_set; eauto.
  - pose proof (dead_remove a h0 h Hinv Hd) as H. destruct (aremove a h0); exact H.
  - destruct Hd as [Hn Hg]. split; [rewrite <- Hn; apply reserve_get | exact Hg].
Qed.

Lemma astep_live_or_dead a o h v :
  ainv a -> get a h = Some v -> get (fst (astep a o)) h = None -> dead (fst (astep a o)) h.
Proof.
  intros Hinv Hg Hn. destruct o; cbn [astep fst] in *; try congruence.
  - destruct (insert_ok a v0 Hinv) as [a' [h' Hi]]. rewrite Hi in *. cbn in *.
    rewrite (insert_get _ _ _ _ _ Hinv Hi) in Hn. destruct (index_eqb h' h); congruence.
  - destruct (set a h0 v0) eqn:E; cbn in *; [|congruence].
    rewrite (set_get _ _ _ _ _ Hinv E) in Hn. destruct (index_eqb h0 h); congruence.
  - destruct (aremove a h0) as [a' r] eqn:Er. cbn in *.
    pose proof (remove_get a h0 h Hinv) as Hr. rewrite Er in Hr. cbn in Hr.
    destruct (index_eqb_spec h0 h) as [->|Hne]; [|congruence].
    pose proof (removed_dead a h v Hinv Hg) as Hd. rewrite Er in Hd. exact Hd.
  - change (get (reserve a k) h = None) in Hn. rewrite reserve_get in Hn. congruence.
Qed.

Lemma afinal_app a os1 os2 : afinal a (os1 ++ os2) = afinal (afinal a os1) os2.
Proof. revert a; induction os1 as [|o t IH]; intros a; cbn; auto. Qed.

Lemma afinal_dead os : forall a h, ainv a -> Forall aop_ok os -> dead a h -> dead (afinal a os) h.
Proof.
  induction os as [|o t IH]; intros a h Ha Hok Hd; cbn; auto. inversion Hok; subst.
  apply IH; auto. apply astep_inv; auto. apply astep_dead; auto.
Qed.

Lemma afinal_live_or_dead os : forall a h v,
  ainv a -> Forall aop_ok os -> get a h = Some v -> get (afinal a os) h = None -> dead (afinal a os) h.
Proof.
  induction os as [|o t IH]; intros a h v Ha Hok Hg Hn; cbn in *; [congruence|].
  inversion Hok; subst. pose proof (astep_inv a o Ha H1) as Ha'.
  destruct (get (fst (astep a o)) h) as [w|] eqn:E.
  - eapply IH; eauto.
  - apply afinal_dead; auto. eapply astep_live_or_dead; eauto.
Qed.

Lemma stale_forever n (os1 os2 os3 : list (aop A)) h v :
  Forall aop_ok os1 -> Forall aop_ok os2 -> Forall aop_ok os3 ->
  get (afinal (with_capacity n) os1) h = Some v ->
  get (afinal (with_capacity n) (os1 ++ os2)) h = None ->
  get (afinal (with_capacity n) (os1 ++ os2 ++ os3)) h = None.
Proof.
  intros H1 H2 H3 Hs Hn. rewrite app_assoc, afinal_app.
  rewrite afinal_app in Hn |- *.
  pose proof (afinal_inv os1 _ (with_capacity_inv n) H1) as Hi.
  apply (afinal_dead os3); auto.
  - apply afinal_inv; auto.
  - eapply afinal_live_or_dead; eauto.
Qed.

(** ** Handles are never returned twice *)

Lemma hstep_issued (m : hmap A) o r m' h : hstep m o r m' -> issued m h -> issued m' h.
Proof. intros Hs Hi; inversion Hs; subst; try assumption; firstorder. Qed.

Lemma hrun_handles_not_issued (m : hmap A) os rs h :
  hrun m os rs -> In h (handles rs) -> ~ issued m h.
Proof.
  induction 1 as [m|m o r m' os rs Hs Hr IH]; cbn; [tauto|].
  intros Hin Hi. destruct r; try (apply IH; [exact Hin | eapply hstep_issued; eauto]).
  destruct Hin as [->|Hin]; [|apply IH; [exact Hin | eapply hstep_issued; eauto]].
  inversion Hs; subst; tauto.
Qed.

Lemma hrun_handles_nodup (m : hmap A) os rs : hrun m os rs -> NoDup (handles rs).
Proof.
  induction 1 as [m|m o r m' os rs Hs Hr IH]; cbn; [constructor|].
  destruct r; auto. constructor; auto. intros Hin.
  apply (hrun_handles_not_issued _ _ _ _ Hr Hin).
  inversion Hs; subst. firstorder.
Qed.

Lemma handles_nodup n (os : list (aop A)) : Forall aop_ok os -> NoDup (handles (arun (with_capacity n) os)).
Proof. intros H. eapply hrun_handles_nodup, arena_history_refines; auto. Qed.

Lemma iter_len_agree n (os : list (aop A)) :
  Forall aop_ok os ->
  let a := afinal (with_capacity n) os in
  NoDup (map fst (aiter a)) /\
  (forall h v, In (h, v) (aiter a) <-> get a h = Some v) /\
  slots_increasing (aiter a) /\
  len a = length (aiter a) /\
  (is_empty a = true <-> aiter a = []) /\
  len a <= capacity a.
Proof.
  intros Hok a.
  assert (Hinv : ainv a) by (apply afinal_inv; auto using with_capacity_inv).
  destruct (iter_enumerates a) as [H1 H2].
  repeat split; auto.
  - apply H2.
  - apply H2.
  - apply iter_from_increasing.
  - symmetry. apply iter_length; auto.
  - unfold is_empty. fold (len a). rewrite <- iter_length by auto.
    intros E. apply Nat.eqb_eq in E. destruct (aiter a); [auto|discriminate].
  - intros E. unfold is_empty. fold (len a). rewrite <- iter_length by auto. rewrite E. reflexivity.
  - unfold len, capacity. rewrite (ai_len _ Hinv). apply used_le.
Qed.

End Proofs.

Lemma reserve_zero_panics :
  exists os : list (aop nat), arun arena_new os = [OUnit; OPanic].
Proof. exists [AReserve 0; AInsert 7]. vm_compute. reflexivity. Qed.
