(** What the builder writes can be read. *)
From Verif Require Import Wire.
Open Scope nat_scope.

(** ** Numbers *)
Definition pow (n : nat) : Z := (2 ^ (8 * Z.of_nat n))%Z.
Lemma pow_S : forall n, pow (S n) = (256 * pow n)%Z.
Proof.
  intros n. unfold pow. replace (8 * Z.of_nat (S n))%Z with (8 + 8 * Z.of_nat n)%Z by lia.
  rewrite Z.pow_add_r by lia. reflexivity.
Qed.
Lemma pow_pos : forall n, (0 < pow n)%Z.
Proof. intros n. unfold pow. apply Z.pow_pos_nonneg; lia. Qed.
Lemma put_length : forall n v, length (put n v) = n.
Proof. induction n as [|n IH]; intros v; cbn [put length]; [reflexivity|rewrite IH; reflexivity]. Qed.
Lemma le_put : forall n v, le (put n v) = (v mod pow n)%Z.
Proof.
  induction n as [|n IH]; intros v; cbn [put le].
  - unfold pow. cbn. symmetry. apply Z.mod_1_r.
  - rewrite IH, pow_S, Z.rem_mul_r by (generalize (pow_pos n); lia). reflexivity.
Qed.

Lemma get_front : forall n l b, length l = n -> get n (l ++ b) 0 = Some (le l).
Proof.
  intros n l b <-. unfold get. rewrite app_length. cbn [Nat.add skipn].
  replace (length l <=? length l + length b) with true by (symmetry; apply Nat.leb_le; lia).
  rewrite firstn_app, Nat.sub_diag, firstn_all. cbn [firstn]. rewrite app_nil_r. reflexivity.
Qed.
Lemma get_shift : forall n pre b p, get n (pre ++ b) (length pre + p) = get n b p.
Proof.
  intros n pre b p. unfold get. rewrite app_length.
  replace (length pre + p + n <=? length pre + length b) with (p + n <=? length b).
  - rewrite skipn_app. rewrite skipn_all2 by lia. replace (length pre + p - length pre) with p by lia. reflexivity.
  - destruct (Nat.leb_spec (p + n) (length b)); symmetry; [apply Nat.leb_le|apply Nat.leb_gt]; lia.
Qed.
Lemma get_some : forall n b p v, get n b p = Some v -> p + n <= length b.
Proof. intros n b p v H. unfold get in H. destruct (Nat.leb_spec (p + n) (length b)); [lia|discriminate H]. Qed.

(** ** Whatever can be read can still be read when more is written in front *)
Definition shifts {A : Type} (d : list Z -> nat -> option A) : Prop :=
  forall pre b p v, d b p = Some v -> d (pre ++ b) (length pre + p) = Some v.

Lemma vtable_shift : forall pre b t v, vtable b t = Some v -> vtable (pre ++ b) (length pre + t) = Some (length pre + v).
Proof.
  intros pre b t v H. unfold vtable in *. rewrite get_shift. destruct (get 4 b t) as [x|]; [|discriminate H].
  destruct (Z.leb_spec 0 (Z.of_nat t - signed 4 x)); [|discriminate H].
  assert (v = Z.to_nat (Z.of_nat t - signed 4 x)) by congruence. subst v.
  replace (0 <=? Z.of_nat (length pre + t) - signed 4 x)%Z with true by (symmetry; apply Z.leb_le; lia).
  f_equal. lia.
Qed.
Lemma slot_shift : forall pre b t i r, slot b t i = Some r ->
  slot (pre ++ b) (length pre + t) i = Some (option_map (Nat.add (length pre)) r).
Proof.
  intros pre b t i r H. unfold slot in *. destruct (vtable b t) as [v|] eqn:V; [|discriminate H].
  rewrite (vtable_shift _ _ _ _ V), get_shift. destruct (get 2 b v) as [len|]; [|discriminate H].
  destruct (Z.of_nat (6 + 2 * i) <=? len)%Z.
  - replace (length pre + v + (4 + 2 * i)) with (length pre + (v + (4 + 2 * i))) by lia. rewrite get_shift.
    destruct (get 2 b (v + (4 + 2 * i))) as [o|]; [|discriminate H].
    destruct (o =? 0)%Z; assert (R := H); [assert (r = None) by congruence|assert (r = Some (t + Z.to_nat o)) by congruence];
      subst r; cbn [option_map]; f_equal. f_equal. lia.
  - assert (r = None) by congruence. subst r. reflexivity.
Qed.
Lemma follow_shift : forall pre b p q, follow b p = Some q -> follow (pre ++ b) (length pre + p) = Some (length pre + q).
Proof.
  intros pre b p q H. unfold follow in *. rewrite get_shift. destruct (get 4 b p); [|discriminate H].
  assert (Q := f_equal (fun o => match o with Some x => x | None => 0 end) H). cbn in Q. subst q. f_equal. lia.
Qed.
Lemma scalar_shift : forall n i, shifts (fun b t => scalar n b t i).
Proof.
  intros n i pre b t v H. unfold scalar in *. destruct (slot b t i) as [r|] eqn:S; [|discriminate H].
  rewrite (slot_shift _ _ _ _ _ S). destruct r as [p|]; cbn [option_map]; [rewrite get_shift|]; exact H.
Qed.
Lemma pointer_shift : forall A (d : list Z -> nat -> option A) i, shifts d -> shifts (fun b t => pointer d b t i).
Proof.
  intros A d i D pre b t v H. unfold pointer in *. destruct (slot b t i) as [r|] eqn:S; [|discriminate H].
  rewrite (slot_shift _ _ _ _ _ S). destruct r as [p|]; cbn [option_map]; [|exact H].
  destruct (follow b p) as [q|] eqn:F; [|discriminate H]. rewrite (follow_shift _ _ _ _ F).
  destruct (d b q) as [x|] eqn:X; [|discriminate H]. rewrite (D _ _ _ _ X). exact H.
Qed.
Lemma text_shift : shifts text.
Proof.
  intros pre b p v H. unfold text in *. rewrite get_shift. destruct (get 4 b p) as [len|]; [|discriminate H].
  destruct (Nat.leb_spec (p + 4 + Z.to_nat len) (length b)); [|discriminate H].
  rewrite app_length.
  replace (length pre + p + 4 + Z.to_nat len <=? length pre + length b) with true by (symmetry; apply Nat.leb_le; lia).
  rewrite skipn_app. rewrite skipn_all2 by lia. replace (length pre + p + 4 - length pre) with (p + 4) by lia. exact H.
Qed.
Lemma all_impl : forall A B (f g : A -> option B) l w, (forall x v, f x = Some v -> g x = Some v) ->
  all (map f l) = Some w -> all (map g l) = Some w.
Proof.
  induction l as [|x l IH]; intros w H E; cbn [map all] in *; [exact E|].
  destruct (f x) as [v|] eqn:F; [|discriminate E]. rewrite (H _ _ F).
  destruct (all (map f l)) as [r|]; [|discriminate E]. rewrite (IH r H eq_refl). exact E.
Qed.
Lemma vector_shift : forall A (d : list Z -> nat -> option A), shifts d -> shifts (vector d).
Proof.
  intros A d D pre b p w H. unfold vector in *. rewrite get_shift. destruct (get 4 b p) as [len|]; [|discriminate H].
  eapply all_impl; [|exact H]. intros k v E. cbv beta in *.
  replace (length pre + p + 4 + 4 * k) with (length pre + (p + 4 + 4 * k)) by lia.
  destruct (follow b (p + 4 + 4 * k)) as [q|] eqn:F; [|discriminate E]. rewrite (follow_shift _ _ _ _ F). apply D. exact E.
Qed.
Lemma kinds_shift : shifts kinds_at.
Proof.
  intros pre b p w H. unfold kinds_at in *. rewrite get_shift. destruct (get 4 b p) as [len|]; [|discriminate H].
  eapply all_impl; [|exact H]. intros k v E. cbv beta in *.
  replace (length pre + p + 4 + k) with (length pre + (p + 4 + k)) by lia. rewrite get_shift. exact E.
Qed.

(** [d] reads [v] at the place [o] (counted from the end). *)
Definition holds {A : Type} (d : list Z -> nat -> option A) (b : list Z) (o : nat) (v : A) : Prop :=
  o <= length b /\ d b (length b - o) = Some v.
Lemma holds_more : forall A (d : list Z -> nat -> option A) pre b o v, shifts d -> holds d b o v -> holds d (pre ++ b) o v.
Proof.
  intros A d pre b o v D [L H]. split; rewrite app_length; [lia|].
  replace (length pre + length b - o) with (length pre + (length b - o)) by lia. apply D. exact H.
Qed.

(** [b'] is [b] with something in front. *)
Definition more (b b' : build) : Prop := exists pre, bu b' = pre ++ bu b.
Lemma more_refl : forall b, more b b. Proof. intros b. exists []. reflexivity. Qed.
Lemma more_trans : forall a b c, more a b -> more b c -> more a c.
Proof. intros a b c [p P] [q Q]. exists (q ++ p). rewrite Q, P, app_assoc. reflexivity. Qed.
Lemma more_used : forall a b, more a b -> used a <= used b.
Proof. intros a b [p P]. unfold used. rewrite P, app_length. lia. Qed.
Lemma more_holds : forall A (d : list Z -> nat -> option A) a b o v, shifts d -> more a b -> holds d (bu a) o v -> holds d (bu b) o v.
Proof. intros A d a b o v D [p P] H. rewrite P. apply holds_more; assumption. Qed.

(** ** The primitive steps *)
Lemma align_more : forall l a b, more b (align l a b).
Proof. intros. eexists. reflexivity. Qed.
Lemma prepend_more : forall l b, more b (prepend l b).
Proof. intros. eexists. reflexivity. Qed.
Lemma push_more : forall x b, more b (push x b).
Proof. intros [n v|o] b; (eapply more_trans; [apply align_more|apply prepend_more]). Qed.
Lemma push_vts : forall x b, vts (push x b) = vts b.
Proof. intros [n v|o] b; reflexivity. Qed.

Lemma align_used : forall l a b, a <> 0 -> used (align l a b) < used b + a.
Proof.
  intros l a b N. unfold used, align. cbn [bu]. rewrite app_length, repeat_length.
  pose proof (Nat.mod_upper_bound (a - (used b + l) mod a) a N). unfold used in *. lia.
Qed.
Lemma align_mod : forall l a b, a <> 0 -> (used (align l a b) + l) mod a = 0.
Proof.
  intros l a b N. unfold used, align. cbn [bu]. rewrite app_length, repeat_length. fold (used b).
  set (r := (used b + l) mod a).
  replace ((a - r) mod a + used b + l) with ((used b + l) + (a - r) mod a) by lia.
  rewrite Nat.add_mod_idemp_r by exact N.
  pose proof (Nat.mod_upper_bound (used b + l) a N) as U. fold r in U.
  rewrite (Nat.div_mod (used b + l) a N). fold r.
  replace (a * ((used b + l) / a) + r + (a - r)) with (0 + (1 + (used b + l) / a) * a) by lia.
  rewrite Nat.mod_add by exact N. apply Nat.mod_0_l. exact N.
Qed.
Definition size (x : fval) : nat := match x with FScalar n _ => n | FOff _ => 4 end.
Definition sane (x : fval) : Prop := match x with FScalar n _ => In n [1; 2; 4; 8] | FOff _ => True end.
Lemma size_sane : forall x, sane x -> 0 < size x <= 8.
Proof. intros [n v|o] H; cbn in *; [|lia]. destruct H as [<-|[<-|[<-|[<-|[]]]]]; lia. Qed.
Lemma push_mod : forall x b, sane x -> used (push x b) mod size x = 0.
Proof.
  intros x b SX. pose proof (size_sane x SX) as ZX.
  assert (P : used (push x b) = used (align (size x) (size x) b) + size x).
  { destruct x as [n v|o]; unfold push, prepend, used; cbn [bu]; rewrite app_length, put_length; cbn [size]; lia. }
  rewrite P. apply align_mod. lia.
Qed.
Lemma push_used : forall x b, sane x -> used b + size x <= used (push x b) < used b + 16.
Proof.
  intros x b SX. pose proof (size_sane x SX) as ZX.
  assert (P : used (push x b) = used (align (size x) (size x) b) + size x).
  { destruct x as [n v|o]; unfold push, prepend, used; cbn [bu]; rewrite app_length, put_length; cbn [size]; lia. }
  rewrite P. pose proof (align_used (size x) (size x) b ltac:(lia)). pose proof (more_used _ _ (align_more (size x) (size x) b)). lia.
Qed.

(** What is at a place after it was pushed there. *)
Definition field_at (x : fval) (b : list Z) (o : nat) : Prop :=
  match x with
  | FScalar n v => holds (get n) b o (v mod pow n)%Z
  | FOff p => o <= length b /\ follow b (length b - o) = Some (length b - p)
  end.
Lemma field_more : forall x pre b o, field_at x b o -> (match x with FOff p => p <= length b | _ => True end) ->
  field_at x (pre ++ b) o.
Proof.
  intros [n v|p] pre b o H K; cbn [field_at] in *.
  - apply holds_more; [|exact H]. intros pr c q w. rewrite get_shift. tauto.
  - destruct H as [L H]. rewrite app_length. split; [lia|].
    replace (length pre + length b - o) with (length pre + (length b - o)) by lia. rewrite (follow_shift _ _ _ _ H). f_equal. lia.
Qed.

(** The buffer stays below 2 GiB (the builder panics otherwise). *)
Definition small (b : build) : Prop := (Z.of_nat (used b) < 2 ^ 31)%Z.
Lemma more_small : forall a b, more a b -> small b -> small a.
Proof. intros a b M SM. apply more_used in M. unfold small in *. lia. Qed.

Lemma push_at : forall x b, small (push x b) -> (match x with FOff p => p <= used b | _ => True end) ->
  field_at x (bu (push x b)) (used (push x b)).
Proof.
  intros [n v|p] b SM K; cbn [field_at].
  - split; [unfold used; lia|]. unfold used. rewrite Nat.sub_diag. unfold push, prepend. cbn [bu].
    rewrite get_front by apply put_length. rewrite le_put. reflexivity.
  - split; [unfold used; lia|]. unfold used at 1. rewrite Nat.sub_diag. unfold follow.
    assert (B : bu (push (FOff p) b) = put 4 (Z.of_nat (used (align 4 4 b) + 4 - p)) ++ bu (align 4 4 b)) by reflexivity.
    assert (U : used (push (FOff p) b) = used (align 4 4 b) + 4).
    { unfold used at 1. rewrite B, app_length, put_length. unfold used. lia. }
    rewrite B at 1. rewrite get_front by apply put_length. rewrite le_put.
    unfold small in SM. rewrite U in SM.
    rewrite Z.mod_small by (change (pow 4) with (2 ^ 32)%Z; lia). f_equal. fold (used (push (FOff p) b)). rewrite U. lia.
Qed.

(** ** Tables *)
(** The vtables in the cache are where it says. *)
Definition cached (b : build) : Prop :=
  forall vt v, In (vt, v) (vts b) -> v <= used b /\ v mod 2 = 0 /\ exists tl, skipn (used b - v) (bu b) = vt ++ tl.
Lemma skipn_more : forall (pre b : list Z) v, v <= length b -> skipn (length pre + length b - v) (pre ++ b) = skipn (length b - v) b.
Proof.
  intros pre b v L. rewrite skipn_app. rewrite skipn_all2 by lia. cbn [app]. f_equal. lia.
Qed.
Lemma cached_more : forall a b, more a b -> vts b = vts a -> cached a -> cached b.
Proof.
  intros a b [p P] V C vt v I. rewrite V in I. destruct (C _ _ I) as (L & EV & tl & T). unfold used in *. rewrite P, app_length.
  split; [lia|]. split; [exact EV|]. exists tl. rewrite skipn_more by exact L. exact T.
Qed.

Definition targets (l : list (nat * fval)) (n : nat) : Prop := forall i o, In (i, FOff o) l -> o <= n.

Lemma push_fields_spec : forall l b locs b', push_fields l b = (locs, b') -> Forall (fun f => sane (snd f)) l ->
  targets l (used b) -> small b' ->
  more b b' /\ vts b' = vts b /\ used b' <= used b + 16 * length l /\ map fst locs = map fst l /\
  (forall i o, In (i, o) locs -> exists x, In (i, x) l /\ used b < o <= used b' /\ o mod size x = 0 /\ size x <= o /\ field_at x (bu b') o).
Proof.
  induction l as [|[i x] l IH]; intros b locs b' E F T SM; cbn [push_fields] in E.
  - assert (locs = [] /\ b' = b) as [-> ->] by (split; congruence).
    split; [apply more_refl|]. split; [reflexivity|]. split; [cbn; lia|]. split; [reflexivity|]. intros i o [].
  - destruct (push_fields l (push x b)) as [r b1] eqn:R.
    assert (locs = (i, used (push x b)) :: r) by congruence. assert (b1 = b') by congruence. subst locs b1.
    apply Forall_cons_iff in F. destruct F as [F1 F2]. cbn [snd] in F1.
    assert (T2 : targets l (used (push x b))).
    { intros j o J. pose proof (T j o (or_intror J)). pose proof (more_used _ _ (push_more x b)). lia. }
    destruct (IH _ _ _ R F2 T2 SM) as (M & V & U & N & X).
    pose proof (push_used x b F1) as PU. pose proof (size_sane x F1) as SS.
    split; [eapply more_trans; [apply push_more|exact M]|]. split; [rewrite V; apply push_vts|].
    split; [cbn [length]; lia|]. split; [cbn [map fst]; f_equal; exact N|].
    intros j o [J|J].
    + assert (j = i) by congruence. assert (o = used (push x b)) by congruence. subst j o.
      exists x. split; [left; reflexivity|]. split; [pose proof (more_used _ _ M); lia|].
      split; [apply push_mod; exact F1|]. split; [lia|].
      destruct M as [pre M]. rewrite M. apply field_more.
      * apply push_at; [eapply more_small; [exists pre; exact M|exact SM]|]. destruct x as [|p]; [exact I|]. apply (T i). left. reflexivity.
      * destruct x as [|p]; [exact I|]. pose proof (T i p (or_introl eq_refl)).
        pose proof (more_used _ _ (push_more (FOff p) b)). unfold used in *. lia.
    + destruct (X j o J) as (y & Y & B & FA). exists y. split; [right; exact Y|]. split; [|exact FA]. lia.
Qed.

Lemma loc_in : forall i locs o, NoDup (map fst locs) -> (loc i locs = Some o <-> In (i, o) locs).
Proof.
  intros i locs o. unfold loc. induction locs as [|[j p] locs IH]; intros N; cbn [find option_map In].
  - split; [discriminate|tauto].
  - cbn [map fst] in N. apply NoDup_cons_iff in N. destruct N as [N1 N2]. cbn [fst].
    destruct (Nat.eqb_spec j i) as [->|D].
    + cbn [option_map snd]. split; [intros H; left; congruence|]. intros [H|H]; [congruence|].
      destruct N1. apply in_map_iff. exists (i, o). auto.
    + rewrite (IH N2). split; [auto|]. intros [H|H]; [congruence|exact H].
Qed.
Lemma loc_none : forall i locs, loc i locs = None <-> ~ In i (map fst locs).
Proof.
  intros i locs. unfold loc. induction locs as [|[j p] locs IH]; cbn [find option_map map fst In]; [tauto|].
  destruct (Nat.eqb_spec j i) as [->|D]; cbn [option_map].
  - split; [discriminate|]. intros H. destruct H. left. reflexivity.
  - rewrite IH. tauto.
Qed.

Definition width (locs : list (nat * nat)) : nat := fold_right (fun p m => Nat.max (S (fst p)) m) 0 locs.
Lemma width_above : forall locs i, In i (map fst locs) -> i < width locs.
Proof.
  induction locs as [|[j p] locs IH]; intros i H; [destruct H|]. cbn [map fst] in H. unfold width. cbn [fold_right fst].
  fold (width locs). destruct H as [->|H]; [lia|]. specialize (IH i H). lia.
Qed.
Lemma width_bound : forall locs n, (forall i, In i (map fst locs) -> i < n) -> width locs <= n.
Proof.
  induction locs as [|[j p] locs IH]; intros n H; [cbn; lia|]. unfold width. cbn [fold_right fst]. fold (width locs).
  assert (j < n) by (apply H; left; reflexivity). assert (width locs <= n) by (apply IH; intros i I; apply H; right; exact I). lia.
Qed.

Lemma flat_map_nth : forall (f : nat -> list Z) n k i, (forall j, length (f j) = 2) -> i < n ->
  exists tl, skipn (2 * i) (flat_map f (seq k n)) = f (k + i) ++ tl.
Proof.
  intros f. induction n as [|n IH]; intros k i F I; [lia|]. cbn [seq flat_map]. destruct i as [|i].
  - rewrite Nat.mul_0_r, Nat.add_0_r. eexists. reflexivity.
  - destruct (IH (S k) i F ltac:(lia)) as [tl T]. exists tl.
    replace (2 * S i) with (2 + 2 * i) by lia. rewrite skipn_app, F. rewrite skipn_all2 by (rewrite F; lia).
    cbn [app]. replace (2 + 2 * i - 2) with (2 * i) by lia. rewrite T. f_equal. f_equal. lia.
Qed.
Lemma flat_map_length2 : forall (f : nat -> list Z) l, (forall j, length (f j) = 2) -> length (flat_map f l) = 2 * length l.
Proof. intros f l F. induction l as [|x l IH]; [reflexivity|]. cbn [flat_map length]. rewrite app_length, F, IH. lia. Qed.

Lemma vtable_length : forall locs tail t, length (vtable_bytes locs tail t) = 4 + 2 * width locs.
Proof.
  intros. unfold vtable_bytes. fold (width locs). rewrite !app_length, !put_length, flat_map_length2, seq_length; [lia|].
  intros j. apply put_length.
Qed.
Lemma get_at : forall n b p l tl, skipn p b = l ++ tl -> length l = n -> 0 < n -> get n b p = Some (le l).
Proof.
  intros n b p l tl S L N. unfold get.
  assert (length (skipn p b) = n + length tl) by (rewrite S, app_length; lia). rewrite skipn_length in H.
  replace (p + n <=? length b) with true by (symmetry; apply Nat.leb_le; lia).
  rewrite S. rewrite firstn_app, <- L, Nat.sub_diag, firstn_all. cbn [firstn]. rewrite app_nil_r. reflexivity.
Qed.
Lemma skipn_skipn' : forall (A : Type) (l : list A) a b, skipn a (skipn b l) = skipn (b + a) l.
Proof. intros A l a b. revert l. induction b as [|b IH]; intros l; [reflexivity|]. destruct l; cbn; [destruct a; reflexivity|apply IH]. Qed.

(** Reading the vtable that was written. *)
Lemma vtable_reads : forall locs tail t b p tl,
  skipn p b = vtable_bytes locs tail t ++ tl -> width locs <= 8 -> (forall i o, In (i, o) locs -> o < t < o + 200) ->
  get 2 b p = Some (Z.of_nat (4 + 2 * width locs)) /\
  forall i, i < width locs -> get 2 b (p + (4 + 2 * i)) = Some (match loc i locs with Some o => Z.of_nat (t - o) | None => 0%Z end).
Proof.
  intros locs tail t b p tl S W O. unfold vtable_bytes in S. fold (width locs) in S. split.
  - rewrite <- app_assoc in S. rewrite (get_at 2 b p (put 2 (Z.of_nat (4 + 2 * width locs))) _ S (put_length _ _) ltac:(lia)), le_put.
    rewrite Z.mod_small; [reflexivity|]. change (pow 2) with 65536%Z. lia.
  - intros i I.
    set (f := fun i : nat => put 2 match loc i locs with Some o => Z.of_nat (t - o) | None => 0%Z end) in *.
    destruct (flat_map_nth f (width locs) 0 i (fun j => put_length _ _) I) as [tl2 T]. cbn [Nat.add] in T.
    assert (Q : skipn (p + (4 + 2 * i)) b = f i ++ (tl2 ++ tl)).
    { rewrite <- skipn_skipn', S.
      replace ((put 2 (Z.of_nat (4 + 2 * width locs)) ++ put 2 (Z.of_nat (t - tail)) ++ flat_map f (seq 0 (width locs))) ++ tl)
        with ((put 2 (Z.of_nat (4 + 2 * width locs)) ++ put 2 (Z.of_nat (t - tail))) ++ (flat_map f (seq 0 (width locs)) ++ tl))
        by (rewrite <- !app_assoc; reflexivity).
      rewrite skipn_app. rewrite skipn_all2 by (rewrite app_length, !put_length; lia).
      rewrite app_length, !put_length. cbn [app]. replace (4 + 2 * i - (2 + 2)) with (2 * i) by lia.
      rewrite skipn_app, T. rewrite flat_map_length2 by (intros; apply put_length). rewrite seq_length.
      replace (2 * i - 2 * width locs) with 0 by lia. cbn [skipn]. rewrite <- app_assoc. reflexivity. }
    rewrite (get_at 2 b _ (f i) _ Q (put_length _ _) ltac:(lia)). unfold f. rewrite le_put. f_equal. apply Z.mod_small.
    assert (PW : pow 2 = 65536%Z) by reflexivity. rewrite PW.
    destruct (loc i locs) as [o|] eqn:LO; [|lia].
    unfold loc in LO. destruct (find (fun q => Nat.eqb (fst q) i) locs) as [[j q]|] eqn:FD; [|discriminate LO].
    apply find_some in FD. destruct FD as [FD _]. cbn in LO. assert (q = o) by congruence. subst q. specialize (O _ _ FD). lia.
Qed.

Definition lookup (i : nat) (l : list (nat * fval)) : option fval := option_map snd (find (fun p => Nat.eqb (fst p) i) l).
Lemma lookup_in : forall i l x, NoDup (map fst l) -> In (i, x) l -> lookup i l = Some x.
Proof.
  intros i l x. unfold lookup. induction l as [|[j y] l IH]; intros N I; [destruct I|]. cbn [map fst] in N.
  apply NoDup_cons_iff in N. destruct N as [N1 N2]. cbn [find fst]. destruct (Nat.eqb_spec j i) as [->|D].
  - destruct I as [I|I]; [cbn; congruence|]. destruct N1. apply in_map_iff. exists (i, x). auto.
  - destruct I as [I|I]; [congruence|]. apply IH; assumption.
Qed.
Lemma lookup_none : forall i l, lookup i l = None <-> ~ In i (map fst l).
Proof.
  intros i l. unfold lookup. induction l as [|[j p] l IH]; cbn [find option_map map fst In]; [tauto|].
  destruct (Nat.eqb_spec j i) as [->|D]; cbn [option_map].
  - split; [discriminate|]. intros H. destruct H. left. reflexivity.
  - rewrite IH. tauto.
Qed.

(** A table at [t] with the fields [l], and its vtable at [v]. *)
Definition table_at (l : list (nat * fval)) (b : list Z) (t : nat) : Prop :=
  exists v w, 4 <= t <= length b /\ t mod 4 = 0 /\ v mod 2 = 0 /\ 4 + 2 * w <= v <= length b /\ w <= 8 /\
    vtable b (length b - t) = Some (length b - v) /\ get 2 b (length b - v) = Some (Z.of_nat (4 + 2 * w)) /\
    (forall i, w <= i -> lookup i l = None) /\
    forall i, i < w -> exists z, get 2 b (length b - v + (4 + 2 * i)) = Some z /\
      match lookup i l with
      | None => z = 0%Z
      | Some x => exists o, o < t /\ z = Z.of_nat (t - o) /\ o mod size x = 0 /\ size x <= o /\ field_at x b o
      end.

Lemma signed_small : forall v, (- 2 ^ 31 <= v < 2 ^ 31)%Z -> signed 4 (v mod pow 4) = v.
Proof.
  intros v H. unfold signed. change (8 * Z.of_nat 4 - 1)%Z with 31%Z. change (8 * Z.of_nat 4)%Z with 32%Z.
  change (pow 4) with (2 ^ 32)%Z. destruct (Z.leb_spec 0 v).
  - rewrite Z.mod_small by lia. replace (v <? 2 ^ 31)%Z with true by (symmetry; apply Z.ltb_lt; lia). reflexivity.
  - replace (v mod 2 ^ 32)%Z with (v + 2 ^ 32)%Z.
    + replace (v + 2 ^ 32 <? 2 ^ 31)%Z with false by (symmetry; apply Z.ltb_ge; lia). lia.
    + rewrite <- (Z.mod_small (v + 2 ^ 32) (2 ^ 32)) by lia. rewrite <- (Z_mod_plus_full v 1 (2 ^ 32)). reflexivity.
Qed.

Definition table_ok (l : list (nat * fval)) (n : nat) : Prop :=
  NoDup (map fst l) /\ (forall i, In i (map fst l) -> i < 8) /\ Forall (fun f => sane (snd f)) l /\ targets l n.

Lemma create_table_spec : forall l b t b', create_table l b = (t, b') -> cached b -> table_ok l (used b) -> small b' ->
  more b b' /\ cached b' /\ table_at l (bu b') t.
Proof.
  intros l b t b' E C (ND & LT & SA & TG) S. unfold create_table in E.
  destruct (push_fields l b) as [locs b1] eqn:P. set (b2 := align 4 4 b1) in *.
  set (vt := vtable_bytes locs (used b) (used b2 + 4)) in *.
  assert (LL : length l <= 8).
  { assert (K : incl (map fst l) (seq 0 8)) by (intros i I; apply in_seq; specialize (LT i I); lia).
    pose proof (NoDup_incl_length ND K) as Q. rewrite map_length, seq_length in Q. exact Q. }
  (* all but the choice of the vtable *)
  assert (MAIN : forall v pre, bu b' = pre ++ put 4 (Z.of_nat v - Z.of_nat (used b2 + 4)) ++ bu b2 -> t = used b2 + 4 ->
    v <= used b' -> v mod 2 = 0 /\ 4 + 2 * width locs <= v -> (exists tl, skipn (used b' - v) (bu b') = vt ++ tl) ->
    more b b' /\ more b1 b' /\ vts b1 = vts b /\ table_at l (bu b') t).
  { intros v pre B T VL VE [tl VS].
    assert (M12 : more b1 b2) by apply align_more.
    destruct VE as [VE VW].
    assert (M2 : more b2 b') by (exists (pre ++ put 4 (Z.of_nat v - Z.of_nat (used b2 + 4))); rewrite B, app_assoc; reflexivity).
    assert (S1 : small b1) by (eapply more_small; [eapply more_trans; [exact M12|exact M2]|exact S]).
    destruct (push_fields_spec _ _ _ _ P SA TG S1) as (M1 & V1 & U1 & N1 & X1).
    split; [eapply more_trans; [exact M1|eapply more_trans; [exact M12|exact M2]]|].
    split; [eapply more_trans; [exact M12|exact M2]|]. split; [exact V1|].
    pose proof (align_used 4 4 b1 ltac:(lia)) as U2. fold b2 in U2.
    pose proof (more_used _ _ M12) as U12. pose proof (more_used _ _ M2) as U2'.
    assert (UB : used b' = length pre + 4 + used b2) by (unfold used; rewrite B, !app_length, put_length; lia).
    assert (WB : width locs <= 8) by (apply width_bound; rewrite N1; exact LT).
    assert (OB : forall j o, In (j, o) locs -> o < used b2 + 4 < o + 200).
    { intros j o J. destruct (X1 j o J) as (x & _ & BB & _). lia. }
    destruct (vtable_reads _ _ _ _ _ _ VS WB OB) as [G0 GI].
    assert (VT : vtable (bu b') (used b' - t) = Some (used b' - v)).
    { unfold vtable. subst t. rewrite B. replace (used b' - (used b2 + 4)) with (length pre + 0) by lia. rewrite get_shift.
      rewrite get_front by apply put_length. rewrite le_put, signed_small by (unfold small in S; lia).
      replace (0 <=? Z.of_nat (length pre + 0) - (Z.of_nat v - Z.of_nat (used b2 + 4)))%Z with true
        by (symmetry; apply Z.leb_le; lia). f_equal. lia. }
    assert (NL : NoDup (map fst locs)) by (rewrite N1; exact ND).
    assert (T4 : t mod 4 = 0) by (subst t; apply align_mod; lia).
    exists v, (width locs). fold (used b'). split; [lia|]. split; [exact T4|]. split; [exact VE|]. split; [lia|]. split; [exact WB|].
    split; [exact VT|]. split; [exact G0|]. split.
    - intros i W. apply lookup_none. rewrite <- N1. intros II. pose proof (width_above _ _ II). lia.
    - intros i WA. rewrite (GI i WA). eexists. split; [reflexivity|].
      destruct (lookup i l) as [x|] eqn:LK.
      + assert (II : In i (map fst locs)).
        { rewrite N1. destruct (in_dec Nat.eq_dec i (map fst l)) as [K|K]; [exact K|]. apply lookup_none in K. congruence. }
        destruct (loc i locs) as [o|] eqn:LO; [|apply loc_none in LO; contradiction].
        apply (loc_in i locs o NL) in LO. destruct (X1 _ _ LO) as (y & Y & BB & AL & SZ & FA).
        assert (y = x) by (rewrite (lookup_in _ _ _ ND Y) in LK; congruence). subst y.
        exists o. split; [lia|]. split; [subst t; reflexivity|]. split; [exact AL|]. split; [exact SZ|].
        destruct M12 as [p12 M12], M2 as [p2 M2]. rewrite M2, M12, app_assoc. apply field_more; [exact FA|].
        destruct x as [|q]; [exact I|]. pose proof (TG i q Y). pose proof (more_used _ _ M1). unfold used in *. lia.
      + assert (NI : ~ In i (map fst locs)) by (rewrite N1; apply lookup_none; exact LK).
        apply loc_none in NI. rewrite NI. reflexivity. }
  assert (V2 : vts b2 = vts b1) by reflexivity.
  destruct (find (fun p => bytes_eqb (fst p) vt) (vts b2)) as [[w v]|] eqn:FD.
  - assert (T : t = used b2 + 4) by congruence.
    assert (B' : b' = mkBuild (put 4 (Z.of_nat v - Z.of_nat (used b2 + 4)) ++ bu b2) (vts b2) (ma b2)) by congruence.
    apply find_some in FD. destruct FD as [I Q]. cbn [fst] in Q. unfold bytes_eqb in Q.
    destruct (list_eq_dec Z.eq_dec w vt) as [->|]; [|discriminate Q].
    assert (S1 : small b1).
    { apply (more_small b1 b'); [|exact S]. eapply more_trans; [apply (align_more 4 4)|]. subst b'. eexists. reflexivity. }
    destruct (push_fields_spec _ _ _ _ P SA TG S1) as (M1 & V1 & _).
    assert (C2 : cached b2).
    { apply (cached_more b); [eapply more_trans; [exact M1|apply align_more]|rewrite V2; exact V1|exact C]. }
    assert (M2 : more b2 b') by (subst b'; eexists; reflexivity).
    assert (C' : cached b') by (apply (cached_more b2); [exact M2|subst b'; reflexivity|exact C2]).
    destruct (MAIN v []) as (R1 & R2 & R3 & R4).
    + subst b'. reflexivity.
    + exact T.
    + apply (C' vt v). subst b'. exact I.
    + destruct (C' vt v) as (LV & EV & tl & TL); [subst b'; exact I|]. split; [exact EV|].
      assert (length (skipn (used b' - v) (bu b')) = length vt + length tl) as LS by (rewrite TL, app_length; reflexivity).
      rewrite skipn_length in LS. unfold vt in LS. rewrite vtable_length in LS. unfold used in *. lia.
    + apply (C' vt v). subst b'. exact I.
    + split; [exact R1|]. split; [exact C'|exact R4].
  - assert (T : t = used b2 + 4) by congruence.
    set (v := used b2 + 4 + length vt) in *.
    assert (B' : b' = mkBuild (vt ++ put 4 (Z.of_nat v - Z.of_nat (used b2 + 4)) ++ bu b2) ((vt, v) :: vts b2) (ma b2)) by congruence.
    assert (UV : used b' = v).
    { subst b'. unfold used at 1. cbn [bu]. rewrite !app_length, put_length. fold (used b2). unfold v. lia. }
    assert (VEV : v mod 2 = 0).
    { unfold v, vt. rewrite vtable_length. pose proof (align_mod 4 4 b1 ltac:(lia)) as AM. fold b2 in AM.
      apply Nat.mod_divides in AM; [|lia]. destruct AM as [q AM]. rewrite AM.
      replace (4 * q + (4 + 2 * width locs)) with (0 + (2 * q + 2 + width locs) * 2) by lia. rewrite Nat.mod_add by lia. reflexivity. }
    destruct (MAIN v vt) as (R1 & R2 & R3 & R4).
    + subst b'. reflexivity.
    + exact T.
    + lia.
    + split; [exact VEV|]. unfold v, vt. rewrite vtable_length. lia.
    + rewrite UV, Nat.sub_diag. subst b'. cbn [skipn bu]. eexists. reflexivity.
    + split; [exact R1|]. split; [|exact R4].
      intros w x I. rewrite B' in I. cbn [vts] in I. destruct I as [I|I].
      * assert (w = vt) by congruence. assert (x = v) by congruence. subst w x. split; [lia|]. split; [exact VEV|].
        rewrite UV, Nat.sub_diag. subst b'. cbn [skipn bu]. eexists. reflexivity.
      * rewrite V2, R3 in I. destruct (C _ _ I) as (L & EV & tl & TL). destruct R1 as [pre R1]. unfold used in *. rewrite R1, app_length.
        split; [lia|]. split; [exact EV|]. exists tl. rewrite skipn_more by exact L. exact TL.
Qed.
