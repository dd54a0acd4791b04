(** Proofs about the arena's iterators. *)
From Verif Require Export ArenaProofs ArenaIter.
Open Scope nat_scope.

(** ** Specification: a double-ended queue of the pairs *)
Section Spec.
Context {B : Type}.
Definition last_opt (l : list B) : option (list B * B) :=
  match rev l with [] => None | x :: r => Some (rev r, x) end.
(** Take from the front or the back of a plain list; also report what is left. *)
Fixpoint deque (l : list B) (ds : list dir) : list (option B * nat) :=
  match ds with
  | [] => []
  | Front :: t => match l with
                  | [] => (None, 0) :: deque [] t
                  | x :: r => (Some x, length r) :: deque r t
                  end
  | Back :: t => match last_opt l with
                 | None => (None, 0) :: deque [] t
                 | Some (r, x) => (Some x, length r) :: deque r t
                 end
  end.
End Spec.

Section Proofs.
Context {A : Type}.
Implicit Types (a : arena A) (l : list (entry A)).

Lemma iter_from_app k l1 l2 : iter_from k (l1 ++ l2) = iter_from k l1 ++ iter_from (k + length l1) l2.
Proof.
  revert k; induction l1 as [|[f|g v] l1 IH]; intros k; cbn.
  - now rewrite Nat.add_0_r.
  - rewrite IH. do 2 f_equal. lia.
  - rewrite IH. do 3 f_equal. lia.
Qed.

Definition cgood (c : cursor A) : Prop := cu_len c = length (iter_from (cu_start c) (cu_slots c)).
Definition cview (c : cursor A) : list (index * A) := iter_from (cu_start c) (cu_slots c).

Lemma iter_good a : ainv a -> cgood (iter a) /\ cview (iter a) = aiter a.
Proof.
  intros H. split; [|reflexivity]. unfold cgood; cbn [cu_len cu_start cu_slots iter].
  symmetry. apply (iter_length _ H).
Qed.

Lemma next_spec k l n : n = length (iter_from k l) ->
  exists c', cgood c' /\
    next_loop k l n = Ok (hd_error (iter_from k l), c') /\ cview c' = tl (iter_from k l).
Proof.
  revert k n; induction l as [|[f|g v] l IH]; intros k n ->; cbn.
  - exists (mkCursor k [] 0). repeat split.
  - apply (IH (S k)). reflexivity.
  - exists (mkCursor (S k) l (length (iter_from (S k) l))). unfold cgood, cview; cbn.
    rewrite Nat.sub_0_r. auto.
Qed.

Lemma next_back_spec k rl n : n = length (iter_from k (rev rl)) ->
  exists c', cgood c' /\
    match last_opt (iter_from k (rev rl)) with
    | None => next_back_loop k rl n = Ok (None, c') /\ cview c' = []
    | Some (r, x) => next_back_loop k rl n = Ok (Some x, c') /\ cview c' = r
    end.
Proof.
  revert n; induction rl as [|[f|g v] rl IH]; intros n ->; cbn [rev].
  - cbn. exists (mkCursor k [] 0). repeat split.
  - rewrite iter_from_app. cbn [iter_from]. rewrite app_nil_r. cbn [next_back_loop].
    apply IH. reflexivity.
  - rewrite iter_from_app. cbn [iter_from]. rewrite rev_length.
    unfold last_opt. rewrite rev_app_distr. cbn [rev app].
    rewrite rev_involutive, app_length. cbn [length next_back_loop].
    rewrite Nat.add_1_r. cbn [Nat.eqb]. rewrite Nat.sub_succ, Nat.sub_0_r.
    exists (mkCursor k (rev rl) (length (iter_from k (rev rl)))).
    unfold cgood, cview; cbn. auto.
Qed.

Lemma pulls_deque ds : forall c, cgood c -> pulls c ds = Ok (deque (cview c) ds).
Proof.
  induction ds as [|[|] ds IH]; intros c G; cbn [pulls deque pull]; auto.
  - destruct (next_spec (cu_start c) (cu_slots c) (cu_len c) G) as (c' & G' & E & V).
    unfold next. rewrite E, (IH _ G'), V. unfold cgood in G'.
    fold (cview c) in *. change (iter_from (cu_start c') (cu_slots c')) with (cview c') in G'.
    unfold cursor_len. rewrite G', V. destruct (cview c); cbn; reflexivity.
  - unfold next_back.
    assert (G0 : cu_len c = length (iter_from (cu_start c) (rev (rev (cu_slots c))))) by (rewrite rev_involutive; exact G).
    destruct (next_back_spec (cu_start c) (rev (cu_slots c)) (cu_len c) G0) as (c' & G' & E).
    rewrite rev_involutive in E. change (iter_from (cu_start c) (cu_slots c)) with (cview c) in E.
    unfold cgood in G'. change (iter_from (cu_start c') (cu_slots c')) with (cview c') in G'.
    destruct (last_opt (cview c)) as [[r x]|]; destruct E as [E V]; rewrite E, IH, V by exact G';
      unfold cursor_len; rewrite G', V; reflexivity.
Qed.

Lemma iter_pulls a ds : ainv a -> pulls (iter a) ds = Ok (deque (aiter a) ds).
Proof. intros H. destruct (iter_good a H) as [G V]. rewrite (pulls_deque ds _ G), V. reflexivity. Qed.

(** ** Mutable iteration *)

(** The slot list changes only in values. *)
Definition same_slot (e e' : entry A) : Prop :=
  match e, e' with
  | Free f, Free f' => f = f'
  | Occ g _, Occ g' _ => g = g'
  | _, _ => False
  end.
Lemma same_slot_refl e : same_slot e e. Proof. destruct e; cbn; auto. Qed.
Lemma same_refl l : Forall2 same_slot l l.
Proof. induction l; constructor; auto using same_slot_refl. Qed.
Lemma same_trans l1 l2 l3 : Forall2 same_slot l1 l2 -> Forall2 same_slot l2 l3 -> Forall2 same_slot l1 l3.
Proof.
  intros H; revert l3; induction H as [|x y l l' Hx H IH]; intros l3 H3; inversion H3; subst; constructor; auto.
  destruct x, y; cbn in *; try tauto; destruct y0; cbn in *; try tauto; congruence.
Qed.

Definition mview (m : cursor_mut A) : list (entry A) := mu_before m ++ cu_slots (mu_cur m) ++ mu_after m.
Definition mgood (m : cursor_mut A) : Prop := cgood (mu_cur m) /\ cu_start (mu_cur m) = length (mu_before m).

Lemma skip_free f l1 l2 : l1 ++ Free f :: l2 = (l1 ++ [@Free A f]) ++ l2.
Proof. now rewrite <- app_assoc. Qed.

Lemma next_mut_spec u l : forall before n after,
  n = length (iter_from (length before) l) ->
  exists m', mgood m' /\
    next_mut_loop u before l n after = Ok (hd_error (iter_from (length before) l), m') /\
    cview (mu_cur m') = tl (iter_from (length before) l) /\
    mview m' = match hd_error (iter_from (length before) l) with
               | None => before ++ l ++ after
               | Some (h, v) => list_set (before ++ l ++ after) (ix h) (Occ (gen h) (u h v))
               end.
Proof.
  induction l as [|[f|g v] l IH]; intros before n after ->; cbn [iter_from].
  - cbn. exists (mkMut before (mkCursor (length before) [] 0) after). repeat split.
  - cbn [next_mut_loop].
    specialize (IH (before ++ [Free f]) (length (iter_from (length (before ++ [Free f])) l)) after eq_refl).
    rewrite app_length in IH. cbn [length] in IH. rewrite Nat.add_1_r in IH.
    destruct IH as (m' & G & E & V & W). exists m'. repeat split; try apply G; auto.
    rewrite W. cbn [app]. rewrite <- app_assoc. reflexivity.
  - cbn [next_mut_loop length Nat.eqb hd_error tl]. rewrite Nat.sub_succ, Nat.sub_0_r.
    eexists. split; [|split; [reflexivity|]].
    + split; cbn; [reflexivity|]. rewrite app_length. cbn. lia.
    + split; [reflexivity|]. unfold mview; cbn [mu_before mu_cur mu_after cu_slots ix gen].
      rewrite <- app_assoc. cbn [app].
      generalize (u (mkIndex (length before) g) v). intros w.
      clear. induction before as [|e before IH]; cbn; auto. f_equal. exact IH.
Qed.

Lemma next_back_mut_spec u rl : forall before n after,
  n = length (iter_from (length before) (rev rl)) ->
  exists m', mgood m' /\
    match last_opt (iter_from (length before) (rev rl)) with
    | None => next_back_mut_loop u before rl n after = Ok (None, m') /\ cview (mu_cur m') = [] /\
              mview m' = before ++ rev rl ++ after
    | Some (r, (h, v)) => next_back_mut_loop u before rl n after = Ok (Some (h, v), m') /\
              cview (mu_cur m') = r /\
              mview m' = list_set (before ++ rev rl ++ after) (ix h) (Occ (gen h) (u h v))
    end.
Proof.
  induction rl as [|[f|g v] rl IH]; intros before n after ->; cbn [rev].
  - cbn. exists (mkMut before (mkCursor (length before) [] 0) after). repeat split.
  - rewrite iter_from_app. cbn [iter_from]. rewrite app_nil_r. cbn [next_back_mut_loop].
    destruct (IH before _ (Free f :: after) eq_refl) as (m' & G & H). exists m'. split; auto.
    rewrite <- app_assoc. cbn [app]. exact H.
  - rewrite iter_from_app. cbn [iter_from]. rewrite rev_length.
    unfold last_opt. rewrite rev_app_distr. cbn [rev app].
    rewrite rev_involutive, app_length. cbn [length next_back_mut_loop].
    rewrite Nat.add_1_r. cbn [Nat.eqb]. rewrite Nat.sub_succ, Nat.sub_0_r.
    eexists. split; [|split; [reflexivity|split]].
    + split; reflexivity.
    + reflexivity.
    + unfold mview; cbn [mu_before mu_cur mu_after cu_slots ix gen].
      rewrite <- (app_assoc (rev rl)). cbn [app]. rewrite !app_assoc.
      replace (length before + length rl) with (length (before ++ rev rl)) by (rewrite app_length, rev_length; reflexivity).
      generalize (u (mkIndex (length (before ++ rev rl)) g) v). intros w.
      generalize (before ++ rev rl). intros p. induction p as [|e p IHp]; cbn; auto. f_equal. exact IHp.
Qed.

(** What the client stored: the answers and what it wrote for each. *)
Fixpoint written (ds : list (dir * (index -> A -> A))) (rs : list (option (index * A) * nat))
  : list (index * A) :=
  match ds, rs with
  | (_, u) :: ds', (Some (h, v), _) :: rs' => (h, u h v) :: written ds' rs'
  | _ :: ds', (None, _) :: rs' => written ds' rs'
  | _, _ => []
  end.

Definition setall (l : list (entry A)) (ws : list (index * A)) : list (entry A) :=
  fold_left (fun l w => list_set l (ix (fst w)) (Occ (gen (fst w)) (snd w))) ws l.

Lemma pulls_mut_spec ds : forall m, mgood m ->
  exists m', mgood m' /\
    pulls_mut m ds = Ok (deque (cview (mu_cur m)) (map fst ds), m') /\
    mview m' = setall (mview m) (written ds (deque (cview (mu_cur m)) (map fst ds))).
Proof.
  induction ds as [|[d u] ds IH]; intros m [G S].
  - exists m. repeat split; auto.
  - destruct d; cbn [pulls_mut map fst deque pull_mut].
    + unfold cgood in G. rewrite S in G.
      destruct (next_mut_spec u (cu_slots (mu_cur m)) (mu_before m) (cu_len (mu_cur m)) (mu_after m) G) as (m1 & G1 & E & V & W).
      rewrite E. destruct (IH m1 G1) as (m2 & G2 & E2 & W2). exists m2. split; auto. rewrite E2.
      assert (L : cu_len (mu_cur m1) = length (cview (mu_cur m1))) by apply G1.
      rewrite L, W2, V, W. unfold cview. rewrite S. unfold mview. clear.
      destruct (iter_from (length (mu_before m)) (cu_slots (mu_cur m))) as [|[h v] r]; cbn; auto.
    + unfold cgood in G. rewrite S in G.
      assert (G0 : cu_len (mu_cur m) = length (iter_from (length (mu_before m)) (rev (rev (cu_slots (mu_cur m)))))) by (rewrite rev_involutive; exact G).
      destruct (next_back_mut_spec u (rev (cu_slots (mu_cur m))) (mu_before m) (cu_len (mu_cur m)) (mu_after m) G0) as (m1 & G1 & E).
      rewrite rev_involutive in E.
      destruct (IH m1 G1) as (m2 & G2 & E2 & W2).
      assert (L : cu_len (mu_cur m1) = length (cview (mu_cur m1))) by apply G1.
      unfold cview at 1 2. rewrite S.
      destruct (last_opt (iter_from (length (mu_before m)) (cu_slots (mu_cur m)))) as [[r [h v]]|];
        destruct E as (E & V & W); exists m2; (split; [exact G2|]); rewrite E, E2, L, V;
        split; auto; rewrite W2, V, W; reflexivity.
Qed.

(** Reading after a batch of writes to pairwise distinct live handles. *)
Lemma in_slot l h v : In (h, v) (iter_from 0 l) <-> nth_error l (ix h) = Some (Occ (gen h) v).
Proof.
  rewrite iter_from_in. split.
  - intros (H & E). rewrite Nat.sub_0_r in *. auto.
  - intros E. rewrite Nat.sub_0_r. split; auto. lia.
Qed.

Lemma deque_answers {B} ds : forall (l : list B),
  exists f b rest, l = f ++ rest ++ b /\
    Permutation (flat_map (fun r => match fst r with Some x => [x] | None => [] end) (deque l ds)) (f ++ b).
Proof.
  induction ds as [|[|] ds IH]; intros l; cbn [deque].
  - exists [], [], l. rewrite app_nil_r. auto.
  - destruct l as [|x r].
    + destruct (IH []) as (f & b & rest & E & P). exists f, b, rest. split; auto.
    + destruct (IH r) as (f & b & rest & E & P). exists (x :: f), b, rest. cbn. split; [now rewrite E|].
      now constructor.
  - destruct (last_opt l) as [[r x]|] eqn:L.
    + assert (E0 : l = r ++ [x]).
      { unfold last_opt in L. destruct (rev l) as [|y q] eqn:R; [discriminate|]. injection L as <- <-.
        rewrite <- (rev_involutive l), R. reflexivity. }
      destruct (IH r) as (f & b & rest & E & P). exists f, (b ++ [x]), rest.
      split; [rewrite E0, E, <- !app_assoc; reflexivity|]. cbn.
      rewrite app_assoc. rewrite <- Permutation_cons_append. now constructor.
    + destruct (IH []) as (f & b & rest & E & P). exists f, b, rest. split; auto.
      cbn. unfold last_opt in L. destruct (rev l) eqn:R; [|discriminate].
      apply (f_equal (@rev B)) in R. rewrite rev_involutive in R. cbn in R. rewrite R. exact E.
Qed.


Definition answers {B} (rs : list (option B * nat)) : list B :=
  flat_map (fun r => match fst r with Some x => [x] | None => [] end) rs.

Lemma written_fst ds : forall rs, length ds = length rs -> map fst (written ds rs) = map fst (answers rs).
Proof.
  unfold answers.
  induction ds as [|[d u] ds IH]; intros [|[[[h v]|] n] rs] L; cbn in *; try discriminate; auto.
  f_equal. auto.
Qed.
Lemma deque_length {B} ds : forall l : list B, length (deque l ds) = length ds.
Proof.
  induction ds as [|[|] ds IH]; intros l; cbn; auto.
  - destruct l; cbn; auto.
  - destruct (last_opt l) as [[r x]|]; cbn; auto.
Qed.

Lemma answers_sub {B} ds (l : list B) : exists rest, Permutation l (answers (deque l ds) ++ rest).
Proof.
  destruct (deque_answers ds l) as (f & b & rest & E & P). exists rest.
  unfold answers. rewrite P. rewrite E at 1.
  rewrite <- app_assoc. apply Permutation_app_head. apply Permutation_app_comm.
Qed.

(** Writing through the references is the same as calling [get_mut] on the
    handles, one after the other. *)
Lemma setall_sets ws : forall a, ainv a -> (forall w, In w ws -> get a (fst w) <> None) ->
  mkArena (setall (items a) ws) (agen a) (free_head a) (alen a) =
  afinal a (map (fun w => ASet (fst w) (snd w)) ws).
Proof.
  induction ws as [|[h v] ws IH]; intros a Inv H; cbn [setall fold_left map afinal].
  - destruct a; reflexivity.
  - cbn [astep fst snd]. destruct (get a h) as [old|] eqn:G; [|exfalso; apply (H (h, v)); cbn; auto].
    unfold set. rewrite G. cbn [fst].
    set (a1 := mkArena (list_set (items a) (ix h) (Occ (gen h) v)) (agen a) (free_head a) (alen a)).
    assert (S1 : set a h v = Some a1) by (unfold set; now rewrite G).
    rewrite <- (IH a1); [reflexivity|exact (set_inv _ _ _ _ Inv S1)|].
    intros w Hw. specialize (H w (or_intror Hw)).
    rewrite (set_get _ _ _ _ _ Inv S1). destruct (index_eqb _ _); congruence.
Qed.

Lemma iter_mut_good a : ainv a -> mgood (iter_mut a) /\ mview (iter_mut a) = items a.
Proof.
  intros H. split.
  - split; [apply (iter_good a H)|reflexivity].
  - unfold mview; cbn. now rewrite app_nil_r.
Qed.

Lemma iter_mut_spec a ds : ainv a ->
  exists m', pulls_mut (iter_mut a) ds = Ok (deque (aiter a) (map fst ds), m') /\
    let ws := written ds (deque (aiter a) (map fst ds)) in
    NoDup (map fst ws) /\ (forall w, In w ws -> get a (fst w) <> None) /\
    after_mut a m' = afinal a (map (fun w => ASet (fst w) (snd w)) ws).
Proof.
  intros Inv. destruct (iter_mut_good a Inv) as [G V].
  destruct (pulls_mut_spec ds _ G) as (m' & _ & E & W). exists m'.
  change (cview (mu_cur (iter_mut a))) with (aiter a) in *.
  split; [exact E|]. intros ws.
  assert (F : map fst ws = map fst (answers (deque (aiter a) (map fst ds)))).
  { apply written_fst. rewrite deque_length, map_length. reflexivity. }
  destruct (answers_sub (map fst ds) (aiter a)) as (rest & P).
  assert (ND : NoDup (map fst (answers (deque (aiter a) (map fst ds))) ++ map fst rest)).
  { rewrite <- map_app. eapply Permutation_NoDup; [apply Permutation_map; exact P|].
    apply (iter_enumerates a). }
  split; [|split].
  - rewrite F. clear -ND. induction (map fst (answers (deque (aiter a) (map fst ds)))) as [|x l IH]; [constructor|].
    cbn in ND. inversion ND; subst. constructor; auto. intros Hx. apply H1. apply in_or_app. auto.
  - intros w Hw. apply (in_map fst) in Hw. rewrite F in Hw. apply in_map_iff in Hw.
    destruct Hw as ([h v] & Eh & Hin).
    assert (I : In (h, v) (aiter a)).
    { eapply Permutation_in; [symmetry; exact P|]. apply in_or_app. auto. }
    apply iter_in in I. cbn in Eh. rewrite <- Eh. congruence.
  - unfold after_mut. fold (mview m'). rewrite W, V. apply setall_sets; auto.
    intros w Hw. apply (in_map fst) in Hw. rewrite F in Hw. apply in_map_iff in Hw.
    destruct Hw as ([h v] & Eh & Hin).
    assert (I : In (h, v) (aiter a)).
    { eapply Permutation_in; [symmetry; exact P|]. apply in_or_app. auto. }
    apply iter_in in I. cbn in Eh. rewrite <- Eh. congruence.
Qed.

Lemma sets_get ws : forall a, ainv a -> NoDup (map fst ws) ->
  (forall w : index * A, In w ws -> get a (fst w) <> None) ->
  let a' := afinal a (map (fun w => ASet (fst w) (snd w)) ws) in
  (forall h v, In (h, v) ws -> get a' h = Some v) /\
  (forall h, ~ In h (map fst ws) -> get a' h = get a h).
Proof.
  induction ws as [|[h v] ws IH]; intros a Inv ND L; cbn [map afinal].
  - split; [intros ? ? []|auto].
  - cbn [astep fst snd]. cbn in ND. inversion ND as [|? ? Hn ND']; subst.
    destruct (set a h v) as [a1|] eqn:S.
    2:{ apply set_none in S. exfalso. apply (L (h, v)); cbn; auto. }
    cbn [fst]. destruct (IH a1 (set_inv _ _ _ _ Inv S) ND') as [H1 H2].
    { intros w Hw. rewrite (set_get _ _ _ _ _ Inv S). destruct (index_eqb _ _); [discriminate|]. apply L. now right. }
    split.
    + intros h' v' [E|Hin].
      * injection E as <- <-. rewrite H2 by exact Hn. rewrite (set_get _ _ _ _ _ Inv S).
        destruct (index_eqb_spec h h); congruence.
      * auto.
    + intros h' Hh. cbn in Hh. rewrite H2 by tauto. rewrite (set_get _ _ _ _ _ Inv S).
      destruct (index_eqb_spec h h'); [tauto|auto].
Qed.

(** ** Building from an iterator *)
Definition filled (a : arena A) (l : list A) (k : nat) : Prop :=
  items a = map (Occ 0%N) l ++ fresh_slots (length l) k None /\ agen a = 0%N /\
  free_head a = (match k with 0 => None | _ => Some (length l) end) /\ alen a = length l /\
  0 < length l + k.

Lemma fresh_cons start k : fresh_slots (A := A) start (S k) None =
  Free (match k with 0 => None | _ => Some (S start) end) :: fresh_slots (S start) k None.
Proof.
  unfold fresh_slots. cbn [seq map].
  replace (S start + k) with (start + S k) by lia. f_equal.
  destruct k as [|k].
  - destruct (Nat.eqb_spec (S start) (start + 1)); [reflexivity|lia].
  - destruct (Nat.eqb_spec (S start) (start + S (S k))); [lia|reflexivity].
Qed.

Lemma filled_insert_room a (l : list A) k v : filled a l (S k) ->
  exists a', try_insert a v = Ok (Some (a', mkIndex (length l) 0%N)) /\ filled a' (l ++ [v]) k.
Proof.
  intros (I & G & F & L & P). unfold try_insert. rewrite F, I.
  rewrite nth_error_app2 by (rewrite map_length; lia).
  rewrite map_length, Nat.sub_diag, fresh_cons. cbn [nth_error].
  rewrite G. eexists. split; [reflexivity|].
  unfold filled; cbn [items agen free_head alen]. rewrite !app_length, L. cbn [length].
  repeat split; try lia.
  - rewrite map_app, <- app_assoc. cbn [map app]. rewrite Nat.add_1_r.
    generalize (fresh_slots (A := A) (S (length l)) k None). intros tl0.
    generalize (match k with 0 => None | S _ => Some (S (length l)) end). intros nf.
    clear. induction l; cbn; auto. f_equal; auto.
  - destruct k; auto. f_equal. lia.
Qed.

Lemma filled_insert a (l : list A) k v : filled a l k ->
  exists a' k', insert a v = Ok (a', mkIndex (length l) 0%N) /\ filled a' (l ++ [v]) k'.
Proof.
  intros H. destruct k as [|k].
  - pose proof H as (I & G & F & L & P). unfold insert.
    assert (E : try_insert a v = Ok None) by (unfold try_insert; now rewrite F).
    rewrite E. rewrite I, app_length, map_length, fresh_length.
    destruct (Nat.eqb_spec (length l + 0) 0) as [E0|_]; [lia|].
    set (n := length l + 0).
    assert (Fr : filled (reserve a n) l n).
    { unfold filled. rewrite reserve_items. unfold reserve; cbn [agen free_head alen].
      rewrite I. change (fresh_slots (A := A) (length l) 0 None) with (@nil (entry A)).
      rewrite app_nil_r, map_length, F.
      repeat split; auto; try lia. unfold n. destruct (length l + 0) eqn:Z; [lia|]. reflexivity. }
    destruct n as [|n'] eqn:En; [lia|].
    destruct (filled_insert_room _ _ _ v Fr) as (a' & E' & F'). rewrite E'. eauto.
  - destruct (filled_insert_room _ _ _ v H) as (a' & E' & F'). unfold insert. rewrite E'. eauto.
Qed.

Lemma extend_filled (l2 : list A) : forall a (l1 : list A) k, filled a l1 k ->
  exists a' k', extend a l2 = Ok a' /\ filled a' (l1 ++ l2) k'.
Proof.
  induction l2 as [|v l2 IH]; intros a l1 k H; cbn [extend].
  - rewrite app_nil_r. eauto.
  - destruct (filled_insert a l1 k v H) as (a1 & k1 & E & H1). rewrite E.
    destruct (IH a1 (l1 ++ [v]) k1 H1) as (a' & k' & E' & H'). rewrite <- app_assoc in H'. eauto.
Qed.

Lemma filled_iter_from (l : list A) : forall i k,
  iter_from i (map (Occ (A := A) 0%N) l ++ fresh_slots k 0 None) =
  combine (map (fun j => mkIndex j 0%N) (seq i (length l))) l.
Proof. induction l as [|v l IH]; intros i k; cbn; auto. f_equal. apply (IH (S i) k). Qed.

Lemma iter_from_free i l : Forall (fun e : entry A => exists f, e = Free f) l -> iter_from i l = [].
Proof. intros H. revert i. induction H as [|e l [f ->] H IH]; intros i; cbn; auto. Qed.

Lemma filled_iter a (l : list A) k : filled a l k ->
  aiter a = combine (map (fun j => mkIndex j 0%N) (seq 0 (length l))) l.
Proof.
  intros (I & _). unfold aiter. rewrite I, iter_from_app.
  rewrite (iter_from_free _ (fresh_slots _ _ _)), app_nil_r.
  - rewrite <- (filled_iter_from l 0 0). cbn [fresh_slots seq map]. now rewrite app_nil_r.
  - apply Forall_forall. intros e He. exact (fresh_all_free _ _ _ _ He).
Qed.

Lemma from_iter_spec hint (l : list A) :
  exists a, from_iter hint l = Ok a /\
    aiter a = combine (map (fun j => mkIndex j 0%N) (seq 0 (length l))) l /\ len a = length l.
Proof.
  unfold from_iter.
  assert (F0 : filled (with_capacity (A := A) (Nat.max hint 1)) [] (Nat.max (Nat.max hint 1) 1)).
  { unfold filled, with_capacity. rewrite reserve_items. unfold reserve; cbn [agen free_head alen items length map app].
    repeat split; try lia. destruct (Nat.max (Nat.max hint 1) 1) eqn:Z; [lia|reflexivity]. }
  destruct (extend_filled l _ _ _ F0) as (a & k & E & F). exists a. split; [exact E|].
  cbn [app] in F. split; [exact (filled_iter _ _ _ F)|]. unfold len. apply F.
Qed.

End Proofs.
