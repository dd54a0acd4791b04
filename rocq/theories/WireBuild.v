(** What the builder writes can be read, and the check accepts it. *)
From Verif Require Import Wire WireWrite.
From Verif Require Text.
From Coq Require Strings.Ascii.
Open Scope nat_scope.

(** ** Alignment: 1, 2, 4 or 8 *)
Definition pw (n : nat) : Prop := n = 1 \/ n = 2 \/ n = 4 \/ n = 8.
Lemma pw_divide : forall a b, pw a -> pw b -> a <= b -> Nat.divide a b.
Proof.
  intros a b [->|[->|[->| ->]]] [->|[->|[->| ->]]] L; try lia;
    solve [exists 1; reflexivity|exists 2; reflexivity|exists 4; reflexivity|exists 8; reflexivity].
Qed.
Lemma pw_max : forall a b, pw a -> pw b -> pw (Nat.max a b).
Proof. intros a b A B. destruct (Nat.max_spec a b) as [[_ ->]|[_ ->]]; assumption. Qed.
Lemma mod_sub : forall a m x y, a <> 0 -> Nat.divide a m -> Nat.divide m x -> y mod a = 0 -> y <= x -> (x - y) mod a = 0.
Proof.
  intros a m x y N D1 D2 M L. apply Nat.mod_divides in M; [|exact N]. destruct M as [q ->].
  destruct (Nat.divide_trans _ _ _ D1 D2) as [r ->].
  replace (r * a - a * q) with ((r - q) * a) by (rewrite Nat.mul_sub_distr_r; lia). apply Nat.mod_mul. exact N.
Qed.

(** [b'] continues [b]. *)
Definition grows (b b' : build) : Prop := more b b' /\ ma b <= ma b'.
Lemma grows_refl : forall b, grows b b. Proof. intros b. split; [apply more_refl|lia]. Qed.
Lemma grows_trans : forall a b c, grows a b -> grows b c -> grows a c.
Proof. intros a b c [A1 A2] [B1 B2]. split; [eapply more_trans; eassumption|lia]. Qed.
Lemma align_grows : forall l a b, grows b (align l a b).
Proof. intros. split; [apply align_more|cbn; lia]. Qed.
Lemma prepend_grows : forall l b, grows b (prepend l b).
Proof. intros. split; [apply prepend_more|cbn; lia]. Qed.
Lemma push_ma : forall x b, ma (push x b) = Nat.max (ma b) (size x).
Proof. intros [n v|o] b; reflexivity. Qed.
Lemma push_grows : forall x b, grows b (push x b).
Proof. intros x b. split; [apply push_more|rewrite push_ma; lia]. Qed.

(** The state of a builder. *)
Definition sound (b : build) : Prop := cached b /\ pw (ma b).
Lemma sane_pw : forall x, sane x -> pw (size x).
Proof. intros [n v|o] H; cbn in *; unfold pw; [|lia]. destruct H as [<-|[<-|[<-|[<-|[]]]]]; lia. Qed.
Lemma sound_push : forall x b, sane x -> sound b -> sound (push x b).
Proof.
  intros x b SX [C P]. split.
  - apply (cached_more b); [apply push_more|apply push_vts|exact C].
  - rewrite push_ma. apply pw_max; [exact P|apply sane_pw; exact SX].
Qed.
Lemma sound_align : forall l a b, pw a -> sound b -> sound (align l a b).
Proof.
  intros l a b A [C P]. split; [apply (cached_more b); [apply align_more|reflexivity|exact C]|]. cbn. apply pw_max; assumption.
Qed.
Lemma sound_prepend : forall l b, sound b -> sound (prepend l b).
Proof. intros l b [C P]. split; [apply (cached_more b); [apply prepend_more|reflexivity|exact C]|exact P]. Qed.
Lemma sound_new : sound (mkBuild [] [] 1).
Proof. split; [intros vt v []|left; reflexivity]. Qed.
Lemma push_fields_ma : forall l b locs b', push_fields l b = (locs, b') -> Forall (fun f => sane (snd f)) l -> pw (ma b) ->
  pw (ma b') /\ ma b <= ma b' /\ (forall i x, In (i, x) l -> size x <= ma b').
Proof.
  induction l as [|[i x] l IH]; intros b locs b' E F P; cbn [push_fields] in E.
  - assert (b' = b) by congruence. subst b'. split; [exact P|]. split; [lia|]. intros i x [].
  - destruct (push_fields l (push x b)) as [r b1] eqn:R. assert (b1 = b') by congruence. subst b1.
    apply Forall_cons_iff in F. destruct F as [F1 F2]. cbn [snd] in F1.
    destruct (IH _ _ _ R F2) as (P2 & M2 & X2); [rewrite push_ma; apply pw_max; [exact P|apply sane_pw; exact F1]|].
    rewrite push_ma in M2. split; [exact P2|]. split; [lia|]. intros j y [J|J]; [|eapply X2; exact J].
    assert (y = x) by congruence. subst y. lia.
Qed.
Lemma create_table_ma : forall l b t b', create_table l b = (t, b') -> Forall (fun f => sane (snd f)) l -> pw (ma b) ->
  pw (ma b') /\ ma b <= ma b' /\ 4 <= ma b' /\ (forall i x, In (i, x) l -> size x <= ma b').
Proof.
  intros l b t b' E F P. unfold create_table in E. destruct (push_fields l b) as [locs b1] eqn:PF.
  destruct (push_fields_ma _ _ _ _ PF F P) as (P1 & M1 & X1).
  assert (Q : ma b' = Nat.max (ma b1) 4).
  { destruct (find _ _) as [[w v]|] in E; assert (B := f_equal (fun q => ma (snd q)) E); cbn in B; congruence. }
  rewrite Q. split; [apply pw_max; [exact P1|unfold pw; lia]|]. split; [lia|]. split; [lia|].
  intros i x I. specialize (X1 i x I). lia.
Qed.

(** ** Acceptance: in every buffer that [b] is the end of, suitably aligned, the check of
    the thing at [o] succeeds, counts [n] tables and at most [c] bytes. *)
Definition checker := list Z -> nat -> vstate -> option vstate.
Definition passes (step : vstate -> option vstate) (n c : Z) : Prop :=
  forall s, (fst s + n <= max_tables)%Z -> (snd s + c <= max_size)%Z ->
  exists s', step s = Some s' /\ (fst s' = fst s + n)%Z /\ (snd s <= snd s' <= snd s + c)%Z.
Definition final (b : build) (bf : list Z) : Prop := (exists pre, bf = pre ++ bu b) /\ Nat.divide (ma b) (length bf).
Definition accepts (run : checker) (b : build) (o : nat) (n c : Z) : Prop :=
  forall bf, final b bf -> passes (run bf (length bf - o)) n c.
Definition wrote {A : Type} (d : list Z -> nat -> option A) (run : checker) (b : build) (o : nat) (v : A) (n c : Z) : Prop :=
  o <= used b /\ holds d (bu b) o v /\ accepts run b o n c.

Lemma final_grows : forall a b bf, grows a b -> pw (ma a) -> pw (ma b) -> final b bf -> final a bf.
Proof.
  intros a b bf [[p P] L] PA PB [[q ->] D]. split; [exists (q ++ p); rewrite P, app_assoc; reflexivity|].
  eapply Nat.divide_trans; [|exact D]. apply pw_divide; assumption.
Qed.
Lemma wrote_grows : forall A (d : list Z -> nat -> option A) run a b o v n c, shifts d -> grows a b -> pw (ma a) -> pw (ma b) ->
  wrote d run a o v n c -> wrote d run b o v n c.
Proof.
  intros A d run a b o v n c SD G PA PB (L & H & AC). split; [pose proof (more_used _ _ (proj1 G)); lia|].
  split; [eapply more_holds; [exact SD|exact (proj1 G)|exact H]|].
  intros bf F. apply AC. eapply final_grows; eassumption.
Qed.

Lemma passes_weaken : forall st n c c', passes st n c -> (c <= c')%Z -> passes st n c'.
Proof.
  intros st n c c' P L s T Z1. destruct (P s T ltac:(lia)) as (s' & E & F & G). exists s'. split; [exact E|]. split; [exact F|lia].
Qed.
Lemma passes_range : forall b n p, p + n <= length b -> passes (ver_range b n p) 0 (Z.of_nat n).
Proof.
  intros b n p L s T Z1. unfold ver_range. replace (p + n <=? length b) with true by (symmetry; apply Nat.leb_le; lia).
  replace (snd s + Z.of_nat n <=? max_size)%Z with true by (symmetry; apply Z.leb_le; lia).
  eexists. split; [reflexivity|]. cbn [fst snd]. split; lia.
Qed.
Lemma passes_in : forall b n p, p mod n = 0 -> p + n <= length b -> passes (ver_in b n p) 0 (Z.of_nat n).
Proof. intros b n p M L s. unfold ver_in. rewrite M. apply passes_range. exact L. Qed.
Lemma passes_seq : forall f g n c m d, passes f n c -> passes g m d -> (0 <= n)%Z -> (0 <= m)%Z -> (0 <= c)%Z -> (0 <= d)%Z ->
  passes (fun s => s1 <- f s; g s1) (n + m) (c + d).
Proof.
  intros f g n c m d F G N0 M0 C0 D0 s T Z1. destruct (F s ltac:(lia) ltac:(lia)) as (s1 & -> & T1 & Z2).
  destruct (G s1 ltac:(lia) ltac:(lia)) as (s2 & -> & T2 & Z3). exists s2. split; [reflexivity|]. split; lia.
Qed.

(** Following an offset to something accepted. *)
Lemma passes_off : forall run bf p q n c, p mod 4 = 0 -> p + 4 <= length bf -> follow bf p = Some q -> passes (run q) n c ->
  (0 <= n)%Z -> (0 <= c)%Z -> passes (ver_off bf run p) n (4 + c).
Proof.
  intros run bf p q n c M L F P N0 C0. unfold ver_off. rewrite F.
  assert (K := passes_seq _ _ _ _ _ _ (passes_in bf 4 p M L) P ltac:(lia) ltac:(lia) ltac:(lia) C0).
  replace (0 + n)%Z with n in K by lia. exact K.
Qed.

(** ** Tables *)
Lemma table_more : forall l pre b t, table_at l b t -> (forall i o, In (i, FOff o) l -> o <= length b) -> table_at l (pre ++ b) t.
Proof.
  intros l pre b t (v & w & T1 & T2 & T3 & T4 & T5 & T6 & T7 & T8 & T9) TG. exists v, w. rewrite app_length.
  split; [lia|]. split; [exact T2|]. split; [exact T3|]. split; [lia|]. split; [exact T5|].
  replace (length pre + length b - t) with (length pre + (length b - t)) by lia.
  replace (length pre + length b - v) with (length pre + (length b - v)) by lia.
  split; [apply vtable_shift; exact T6|]. split; [rewrite get_shift; exact T7|]. split; [exact T8|].
  intros i IW. destruct (T9 i IW) as (z & G & X). exists z.
  replace (length pre + (length b - v) + (4 + 2 * i)) with (length pre + (length b - v + (4 + 2 * i))) by lia.
  split; [rewrite get_shift; exact G|]. destruct (lookup i l) as [x|] eqn:LK; [|exact X].
  destruct X as (o & O1 & O2 & O3 & O4 & O5). exists o. split; [exact O1|]. split; [exact O2|]. split; [exact O3|]. split; [exact O4|].
  apply field_more; [exact O5|]. destruct x as [|q]; [exact I|].
  apply (TG i). unfold lookup in LK. destruct (find _ l) as [[j y]|] eqn:FD; [|discriminate LK].
  apply find_some in FD. destruct FD as [FD E]. cbn in E. apply Nat.eqb_eq in E. cbn in LK. assert (y = FOff q) by congruence. subst. exact FD.
Qed.

Lemma table_slot : forall l b t i, table_at l b t ->
  match lookup i l with
  | None => slot b (length b - t) i = Some None
  | Some x => exists o, slot b (length b - t) i = Some (Some (length b - o)) /\ o mod size x = 0 /\ size x <= o <= length b /\ field_at x b o
  end.
Proof.
  intros l b t i (v & w & T1 & T2 & T3 & T4 & T5 & T6 & T7 & T8 & T9). unfold slot. rewrite T6, T7.
  destruct (Nat.lt_ge_cases i w) as [W|W].
  - destruct (T9 i W) as (z & G & X). rewrite G.
    replace (Z.of_nat (6 + 2 * i) <=? Z.of_nat (4 + 2 * w))%Z with true by (symmetry; apply Z.leb_le; lia).
    destruct (lookup i l) as [x|].
    + destruct X as (o & O1 & -> & O3 & O4 & O5). exists o.
      replace (Z.of_nat (t - o) =? 0)%Z with false by (symmetry; apply Z.eqb_neq; lia).
      split; [f_equal; f_equal; lia|]. split; [exact O3|]. split; [lia|exact O5].
    + subst z. reflexivity.
  - rewrite (T8 i W). replace (Z.of_nat (6 + 2 * i) <=? Z.of_nat (4 + 2 * w))%Z with false by (symmetry; apply Z.leb_gt; lia). reflexivity.
Qed.

(** Reading the fields of a table. *)
Lemma read_scalar : forall l b t i n v, table_at l b t -> lookup i l = Some (FScalar n v) -> (0 <= v < pow n)%Z ->
  scalar n b (length b - t) i = Some v.
Proof.
  intros l b t i n v T L R. pose proof (table_slot l b t i T) as SL. rewrite L in SL. destruct SL as (o & SL & _ & _ & F).
  unfold scalar. rewrite SL. destruct F as [_ F]. rewrite F, Z.mod_small by exact R. reflexivity.
Qed.
Lemma read_mod : forall l b t i n v, table_at l b t -> lookup i l = Some (FScalar n v) ->
  scalar n b (length b - t) i = Some (v mod pow n)%Z.
Proof.
  intros l b t i n v T L. pose proof (table_slot l b t i T) as SL. rewrite L in SL. destruct SL as (o & SL & _ & _ & F).
  unfold scalar. rewrite SL. destruct F as [_ F]. exact F.
Qed.
Lemma read_absent : forall l b t i n, table_at l b t -> lookup i l = None -> scalar n b (length b - t) i = Some 0%Z.
Proof. intros l b t i n T L. pose proof (table_slot l b t i T) as SL. rewrite L in SL. unfold scalar. rewrite SL. reflexivity. Qed.
Lemma read_pointer : forall A (d : list Z -> nat -> option A) l b t i o v, table_at l b t -> lookup i l = Some (FOff o) ->
  holds d b o v -> pointer d b (length b - t) i = Some (Some v).
Proof.
  intros A d l b t i o v T L [_ H]. pose proof (table_slot l b t i T) as SL. rewrite L in SL. destruct SL as (p & SL & _ & _ & F).
  unfold pointer. rewrite SL. destruct F as [_ F]. rewrite F, H. reflexivity.
Qed.
Lemma read_nothing : forall A (d : list Z -> nat -> option A) l b t i, table_at l b t -> lookup i l = None ->
  pointer d b (length b - t) i = Some None.
Proof. intros A d l b t i T L. pose proof (table_slot l b t i T) as SL. rewrite L in SL. unfold pointer. rewrite SL. reflexivity. Qed.

(** Checking a table: [ver_open], then its fields. *)
Definition opens (bf : list Z) (t : nat) (fields : nat -> nat -> vstate -> option vstate) (n c : Z) : Prop :=
  forall vt len l, table_at l bf t -> vtable bf (length bf - t) = Some vt -> get 2 bf vt = Some (Z.of_nat len) ->
  passes (fields vt len) n c.

Lemma passes_open : forall bf l t fields n c, table_at l bf t -> Nat.divide 4 (length bf) ->
  (0 <= n)%Z -> (0 <= c)%Z ->
  (forall vt len, vtable bf (length bf - t) = Some vt -> get 2 bf vt = Some (Z.of_nat len) -> Nat.divide 2 vt ->
     vt + len <= length bf -> passes (fields vt len) n c) ->
  passes (fun s => r <- ver_open bf (length bf - t) s; let '(vt, len, s) := r in fields vt len s) (1 + n) (26 + c).
Proof.
  intros bf l t fields n c (v & w & T1 & T2 & T3 & T4 & T5 & T6 & T7 & _) D4 N0 C0 FS s TB ZB.
  assert (M4 : (length bf - t) mod 4 = 0) by (apply (mod_sub 4 4); [lia|apply Nat.divide_refl|exact D4|exact T2|lia]).
  assert (D2 : Nat.divide 2 (length bf)) by (eapply Nat.divide_trans; [|exact D4]; exists 2; reflexivity).
  assert (M2 : (length bf - v) mod 2 = 0) by (apply (mod_sub 2 2); [lia|apply Nat.divide_refl|exact D2|exact T3|lia]).
  unfold ver_open.
  destruct (passes_in bf 4 _ M4 ltac:(lia) s ltac:(lia) ltac:(lia)) as (s1 & -> & F1 & Z1).
  rewrite T6. replace (length bf - v <? length bf) with true by (symmetry; apply Nat.ltb_lt; lia).
  destruct (passes_in bf 2 _ M2 ltac:(lia) s1 ltac:(lia) ltac:(lia)) as (s2 & -> & F2 & Z2).
  rewrite T7, Nat2Z.id.
  assert (E : Nat.eqb ((length bf - v + (4 + 2 * w)) mod 2) 0 = true).
  { apply Nat.eqb_eq. rewrite Nat.add_mod, M2 by lia. replace (4 + 2 * w) with (0 + (2 + w) * 2) by lia.
    rewrite Nat.mod_add by lia. reflexivity. }
  rewrite E.
  destruct (passes_range bf (4 + 2 * w) (length bf - v) ltac:(lia) s2 ltac:(lia) ltac:(lia)) as (s3 & -> & F3 & Z3).
  replace (fst s3 + 1 <=? max_tables)%Z with true by (symmetry; apply Z.leb_le; lia).
  assert (DV : Nat.divide 2 (length bf - v)) by (apply Nat.mod_divide; [lia|exact M2]).
  destruct (FS _ (4 + 2 * w) T6 T7 DV ltac:(lia) (fst s3 + 1, snd s3)%Z) as (s4 & -> & F4 & Z4); [cbn [fst]; lia|cbn [snd]; lia|].
  cbn [fst snd] in *. exists s4. split; [reflexivity|]. split; lia.
Qed.

Section Fields.
Variables (bf : list Z) (l : list (nat * fval)) (t vt len : nat).
Hypothesis T : table_at l bf t.
Hypothesis V : vtable bf (length bf - t) = Some vt.
Hypothesis G : get 2 bf vt = Some (Z.of_nat len).
Hypothesis D : Nat.divide 2 vt.
Hypothesis R : vt + len <= length bf.

Lemma passes_slot : forall i s, (fst s <= max_tables)%Z -> (snd s + 2 <= max_size)%Z ->
  exists s' r, ver_slot bf vt len (length bf - t) i s = Some (r, s') /\ fst s' = fst s /\ (snd s <= snd s' <= snd s + 2)%Z /\
    match lookup i l with
    | None => r = None
    | Some x => exists o, r = Some (length bf - o) /\ o mod size x = 0 /\ size x <= o <= length bf /\ field_at x bf o
    end.
Proof.
  intros i s T0 Z0. pose proof (table_slot l bf t i T) as SL. unfold slot in SL. rewrite V, G in SL.
  destruct T as (v & w & T1 & T2 & T3 & T4 & T5 & T6 & T7 & T8 & T9).
  assert (VV : vt = length bf - v) by congruence. rewrite VV in *. rewrite T7 in G.
  assert (LW : len = 4 + 2 * w) by (apply Nat2Z.inj; congruence).
  unfold ver_slot. destruct (Nat.lt_ge_cases i w) as [W|W].
  - replace (4 + 2 * i <? len) with true by (symmetry; apply Nat.ltb_lt; lia).
    replace (Z.of_nat (6 + 2 * i) <=? Z.of_nat len)%Z with true in SL by (symmetry; apply Z.leb_le; lia).
    assert (M2 : (length bf - v + (4 + 2 * i)) mod 2 = 0).
    { destruct D as [q ->]. replace (q * 2 + (4 + 2 * i)) with ((q + 2 + i) * 2) by lia. apply Nat.mod_mul. lia. }
    destruct (passes_in bf 2 _ M2 ltac:(lia) s ltac:(lia) ltac:(lia)) as (s1 & -> & F1 & Z1).
    destruct (T9 i W) as (z & GZ & X). rewrite GZ in *.
    eexists s1, _. split; [reflexivity|]. split; [lia|]. split; [lia|].
    destruct (lookup i l) as [x|].
    + destruct SL as (o & SL & SM & SZ & SF). exists o. split; [congruence|]. split; [exact SM|]. split; [exact SZ|exact SF].
    + congruence.
  - replace (4 + 2 * i <? len) with false by (symmetry; apply Nat.ltb_ge; lia).
    eexists s, _. split; [reflexivity|]. split; [lia|]. split; [lia|]. rewrite (T8 i W). reflexivity.
Qed.
Lemma passes_absent : forall run i, lookup i l = None -> passes (ver_field bf run vt len (length bf - t) i) 0 2.
Proof.
  intros run i LK s T0 Z0. destruct (passes_slot i s ltac:(lia) ltac:(lia)) as (s' & r & E & F & Z1 & X). rewrite LK in X. subst r.
  unfold ver_field. rewrite E. exists s'. split; [reflexivity|]. split; lia.
Qed.
Lemma passes_scalar : forall n v i, lookup i l = Some (FScalar n v) -> n <> 0 -> Nat.divide n (length bf) ->
  passes (ver_field bf (ver_in bf n) vt len (length bf - t) i) 0 (2 + Z.of_nat n).
Proof.
  intros n v i LK N0 DN s T0 Z0. destruct (passes_slot i s ltac:(lia) ltac:(lia)) as (s' & r & E & F & Z1 & X). rewrite LK in X.
  destruct X as (o & -> & SM & SZ & _). cbn [size] in SM, SZ. unfold ver_field. rewrite E.
  assert (M : (length bf - o) mod n = 0) by (apply (mod_sub n n); [exact N0|apply Nat.divide_refl|exact DN|exact SM|lia]).
  destruct (passes_in bf n _ M ltac:(lia) s' ltac:(lia) ltac:(lia)) as (s2 & -> & F2 & Z2). exists s2. split; [reflexivity|]. split; lia.
Qed.
Lemma passes_pointer : forall (run : nat -> vstate -> option vstate) o n c i, lookup i l = Some (FOff o) -> Nat.divide 4 (length bf) ->
  passes (run (length bf - o)) n c -> (0 <= n)%Z -> (0 <= c)%Z ->
  passes (ver_field bf (ver_off bf run) vt len (length bf - t) i) n (6 + c).
Proof.
  intros run o n c i LK D4 P N0 C0 s T0 Z0. destruct (passes_slot i s ltac:(lia) ltac:(lia)) as (s' & r & E & F & Z1 & X). rewrite LK in X.
  destruct X as (p & -> & SM & SZ & FA). cbn [size] in SM, SZ. unfold ver_field. rewrite E.
  assert (M : (length bf - p) mod 4 = 0) by (apply (mod_sub 4 4); [lia|apply Nat.divide_refl|exact D4|exact SM|lia]).
  destruct FA as [_ FA].
  destruct (passes_off run bf _ _ n c M ltac:(lia) FA P N0 C0 s' ltac:(lia) ltac:(lia)) as (s2 & -> & F2 & Z2).
  exists s2. split; [reflexivity|]. split; lia.
Qed.
End Fields.

(** ** Strings and vectors *)
Lemma shifts_get : forall n, shifts (get n).
Proof. intros n pre b p v H. rewrite get_shift. exact H. Qed.

Lemma byte_string_bytes : forall s, byte_string (string_bytes s) = s.
Proof.
  intros s. unfold byte_string, string_bytes. rewrite map_map.
  rewrite <- (Coq.Strings.String.string_of_list_ascii_of_string s) at 2. f_equal.
  rewrite <- (map_id (Coq.Strings.String.list_ascii_of_string s)) at 2. apply map_ext. intros a.
  rewrite N2Z.id. apply Coq.Strings.Ascii.ascii_N_embedding.
Qed.

(** Pushing a count in front of [l], both aligned to 4. *)
Lemma counted : forall l n m b b', n <= length l -> (m + length l) mod 4 = 0 -> m = used b ->
  b' = push (FScalar 4 (Z.of_nat n)) (prepend l b) -> small b' -> pw (ma b) -> 4 <= ma b ->
  bu b' = put 4 (Z.of_nat n) ++ l ++ bu b /\ used b' = 4 + length l + used b /\ used b' mod 4 = 0 /\ ma b' = ma b /\
  get 4 (bu b') 0 = Some (Z.of_nat n).
Proof.
  intros l n m b b' N M -> -> SM P M4.
  assert (AL : bu (align 4 4 (prepend l b)) = bu (prepend l b)).
  { unfold align. cbn [bu]. unfold used at 1. cbn [prepend bu]. rewrite app_length.
    replace ((4 - (length l + length (bu b) + 4) mod 4) mod 4) with 0; [reflexivity|].
    replace (length l + length (bu b) + 4) with (used b + length l + 1 * 4) by (unfold used; lia).
    rewrite Nat.mod_add, M by lia. reflexivity. }
  assert (B : bu (push (FScalar 4 (Z.of_nat n)) (prepend l b)) = put 4 (Z.of_nat n) ++ l ++ bu b).
  { change (put 4 (Z.of_nat n) ++ bu (align 4 4 (prepend l b)) = put 4 (Z.of_nat n) ++ l ++ bu b). rewrite AL. reflexivity. }
  assert (U : used (push (FScalar 4 (Z.of_nat n)) (prepend l b)) = 4 + length l + used b).
  { unfold used at 1. rewrite B, !app_length, put_length. unfold used. lia. }
  split; [exact B|]. split; [exact U|]. split.
  - rewrite U. replace (4 + length l + used b) with (used b + length l + 1 * 4) by lia. rewrite Nat.mod_add, M by lia. reflexivity.
  - split; [rewrite push_ma; cbn; lia|]. rewrite B, get_front by apply put_length. rewrite le_put.
    rewrite Z.mod_small; [reflexivity|]. unfold small in SM. rewrite U in SM. change (pow 4) with (2 ^ 32)%Z. lia.
Qed.
Lemma skipn_put : forall v l, skipn 4 (put 4 v ++ l) = l.
Proof. intros v l. rewrite skipn_app. rewrite skipn_all2 by (rewrite put_length; lia). rewrite put_length. reflexivity. Qed.
Lemma skipn_pre : forall (pre l : list Z) k, skipn (length pre + k) (pre ++ l) = skipn k l.
Proof. intros pre l k. rewrite skipn_app, skipn_all2 by lia. cbn [app]. f_equal. lia. Qed.

(** The count in front of a string or vector. *)
Lemma passes_len : forall bf p size n, p mod 4 = 0 -> get 4 bf p = Some (Z.of_nat n) -> (p + 4) mod size = 0 ->
  p + 4 + n * size <= length bf ->
  forall s, (fst s <= max_tables)%Z -> (snd s + (4 + Z.of_nat (n * size)) <= max_size)%Z ->
  exists s', ver_len bf size p s = Some (n, s') /\ fst s' = fst s /\ (snd s <= snd s' <= snd s + (4 + Z.of_nat (n * size)))%Z.
Proof.
  intros bf p size n M G A L s T0 Z0. unfold ver_len.
  destruct (passes_in bf 4 p M ltac:(lia) s ltac:(lia) ltac:(lia)) as (s1 & -> & F1 & Z1). rewrite G, Nat2Z.id, A.
  cbn [Nat.eqb]. destruct (passes_range bf (n * size) (p + 4) ltac:(lia) s1 ltac:(lia) ltac:(lia)) as (s2 & -> & F2 & Z2).
  exists s2. split; [reflexivity|]. split; lia.
Qed.

Definition text_cost (s : string) : Z := (4 + Z.of_nat (length (string_bytes s)))%Z.
Lemma create_string_spec : forall s b o b', create_string s b = (o, b') -> sound b -> small b' -> Text.valid_utf8 (string_bytes s) = true ->
  grows b b' /\ sound b' /\ wrote text ver_text b' o s 0 (text_cost s).
Proof.
  intros s b o b' E SB SM UT. unfold create_string in E. set (l := string_bytes s) in *.
  set (b1 := align (length l + 1) 4 b) in *.
  assert (EB : b' = push (FScalar 4 (Z.of_nat (length l))) (prepend (l ++ [0%Z]) b1)) by congruence.
  assert (EO : o = used b') by congruence.
  assert (S1 : sound b1) by (apply sound_align; [unfold pw; lia|exact SB]).
  assert (M1 : (used b1 + length (l ++ [0%Z])) mod 4 = 0) by (rewrite app_length; cbn [length]; apply align_mod; lia).
  assert (MA : 4 <= ma b1) by (cbn; lia).
  assert (LE : length l <= length (l ++ [0%Z])) by (rewrite app_length; lia).
  destruct (counted _ (length l) _ _ _ LE M1 eq_refl EB SM (proj2 S1) MA) as (B & U & M4 & MM & G).
  split; [eapply grows_trans; [apply align_grows|]; rewrite EB; eapply grows_trans; [apply prepend_grows|apply push_grows]|].
  split; [rewrite EB; apply sound_push; [right; right; left; reflexivity|apply sound_prepend; exact S1]|].
  rewrite app_length in U. cbn [length] in U.
  split; [lia|]. split.
  - split; [unfold used in EO; lia|]. rewrite EO. unfold used. rewrite Nat.sub_diag. unfold text. rewrite G, Nat2Z.id.
    fold (used b'). replace (0 + 4 + length l <=? used b') with true by (symmetry; apply Nat.leb_le; lia).
    rewrite B. cbn [Nat.add]. rewrite skipn_put, <- app_assoc, firstn_app, firstn_all, Nat.sub_diag. cbn [firstn]. rewrite app_nil_r.
    unfold l. rewrite byte_string_bytes. reflexivity.
  - intros bf [[pre BF] DV] st T0 Z0. unfold text_cost in *. fold l in Z0 |- *.
    assert (P : length bf - o = length pre) by (rewrite BF, app_length, EO; unfold used; lia). rewrite P.
    assert (LB : length bf = length pre + used b') by (rewrite BF, app_length; reflexivity).
    assert (PW4 : Nat.divide 4 (ma b')) by (apply pw_divide; [unfold pw; lia|rewrite MM; exact (proj2 S1)|lia]).
    assert (PM : length pre mod 4 = 0) by (rewrite <- P; apply (mod_sub 4 (ma b')); [lia|exact PW4|exact DV|rewrite EO; exact M4|lia]).
    assert (G4 : get 4 bf (length pre) = Some (Z.of_nat (length l))) by (rewrite BF, <- (Nat.add_0_r (length pre)), get_shift; exact G).
    unfold ver_text.
    destruct (passes_len bf (length pre) 1 (length l) PM G4 (Nat.mod_1_r _) ltac:(lia) st ltac:(lia) ltac:(lia)) as (s1 & -> & F1 & Z1).
    assert (SK : skipn (length pre + 4) bf = l ++ 0%Z :: bu b1).
    { rewrite BF, skipn_pre, B, skipn_put, <- app_assoc. reflexivity. }
    rewrite SK, firstn_app, firstn_all, Nat.sub_diag. cbn [firstn]. rewrite app_nil_r. fold l in UT. rewrite UT.
    assert (NE : nth_error bf (length pre + 4 + length l) = Some 0%Z).
    { rewrite <- (firstn_skipn (length pre + 4) bf) at 1. rewrite SK.
      assert (FL : length (firstn (length pre + 4) bf) = length pre + 4) by (rewrite firstn_length; lia).
      rewrite nth_error_app2 by lia. rewrite FL, nth_error_app2 by lia.
      replace (length pre + 4 + length l - (length pre + 4) - length l) with 0 by lia. reflexivity. }
    rewrite NE. exists s1. split; [reflexivity|]. split; lia.
Qed.

Lemma all_nth : forall A B (f : A -> option B) l w, length w = length l ->
  (forall k x v, nth_error l k = Some x -> nth_error w k = Some v -> f x = Some v) -> all (map f l) = Some w.
Proof.
  induction l as [|x l IH]; intros [|v w] L H; cbn [length map all] in *; try discriminate L; [reflexivity|].
  rewrite (H 0 x v eq_refl eq_refl). rewrite (IH w); [reflexivity|lia|]. intros k y u A1 A2. apply (H (S k)); assumption.
Qed.
Lemma nth_seq : forall n s k x, nth_error (seq s n) k = Some x -> x = s + k /\ k < n.
Proof.
  induction n as [|n IH]; intros s k x H; [destruct k; discriminate H|]. destruct k as [|k]; cbn [seq nth_error] in H.
  - assert (x = s) by congruence. lia.
  - apply IH in H. lia.
Qed.

Definition bytes_cost (l : list Z) : Z := (4 + Z.of_nat (length l))%Z.
Lemma create_bytes_spec : forall l b o b', create_bytes l b = (o, b') -> sound b -> small b' ->
  grows b b' /\ sound b' /\ wrote kinds_at ver_bytes b' o (map kind_of_byte l) 0 (bytes_cost l).
Proof.
  intros l b o b' E SB SM. unfold create_bytes in E.
  set (b1 := align (length l) 4 b) in *.
  assert (EB : b' = push (FScalar 4 (Z.of_nat (length l))) (prepend l b1)) by congruence.
  assert (EO : o = used b') by congruence.
  assert (S1 : sound b1) by (apply sound_align; [unfold pw; lia|exact SB]).
  assert (M1 : (used b1 + length l) mod 4 = 0) by (apply align_mod; lia).
  assert (MA : 4 <= ma b1) by (cbn; lia).
  destruct (counted _ (length l) _ _ _ (le_n (length l)) M1 eq_refl EB SM (proj2 S1) MA) as (B & U & M4 & MM & G).
  split; [eapply grows_trans; [apply align_grows|]; rewrite EB; eapply grows_trans; [apply prepend_grows|apply push_grows]|].
  split; [rewrite EB; apply sound_push; [right; right; left; reflexivity|apply sound_prepend; exact S1]|].
  split; [lia|]. split.
  - split; [unfold used in EO; lia|]. rewrite EO. unfold used. rewrite Nat.sub_diag. unfold kinds_at. rewrite G, Nat2Z.id.
    apply all_nth; [rewrite map_length, seq_length; reflexivity|].
    intros k x v K1 K2. apply nth_seq in K1. destruct K1 as [-> K1].
    rewrite nth_error_map in K2. destruct (nth_error l k) as [z|] eqn:NL; [|discriminate K2]. cbn [option_map] in K2.
    cbn [Nat.add]. apply nth_error_split in NL. destruct NL as (l1 & l2 & -> & LK).
    replace (S (S (S (S k)))) with (4 + k) by lia.
    assert (GG : get 1 (bu b') (4 + k) = Some z).
    { rewrite B. replace (4 + k) with (length (put 4 (Z.of_nat (length (l1 ++ z :: l2))) ++ l1) + 0) by (rewrite app_length, put_length; lia).
      rewrite <- app_assoc, (app_assoc (put 4 _)), get_shift. cbn [app].
      change (z :: l2 ++ bu b1) with ([z] ++ (l2 ++ bu b1)). rewrite get_front by reflexivity. cbn [le]. f_equal. lia. }
    rewrite GG. exact K2.
  - intros bf [[pre BF] DV] st T0 Z0. unfold bytes_cost in *.
    assert (P : length bf - o = length pre) by (rewrite BF, app_length, EO; unfold used; lia). rewrite P.
    assert (LB : length bf = length pre + used b') by (rewrite BF, app_length; reflexivity).
    assert (PW4 : Nat.divide 4 (ma b')) by (apply pw_divide; [unfold pw; lia|rewrite MM; exact (proj2 S1)|lia]).
    assert (PM : length pre mod 4 = 0) by (rewrite <- P; apply (mod_sub 4 (ma b')); [lia|exact PW4|exact DV|rewrite EO; exact M4|lia]).
    assert (G4 : get 4 bf (length pre) = Some (Z.of_nat (length l))) by (rewrite BF, <- (Nat.add_0_r (length pre)), get_shift; exact G).
    unfold ver_bytes.
    destruct (passes_len bf (length pre) 1 (length l) PM G4 (Nat.mod_1_r _) ltac:(lia) st ltac:(lia) ltac:(lia)) as (s1 & -> & F1 & Z1).
    exists s1. split; [reflexivity|]. cbn [snd]. split; lia.
Qed.

(** ** Vectors of offsets *)
Lemma push_aligned : forall o b, used b mod 4 = 0 ->
  bu (push (FOff o) b) = put 4 (Z.of_nat (used b + 4 - o)) ++ bu b /\ used (push (FOff o) b) = 4 + used b.
Proof.
  intros o b M.
  assert (AL : bu (align 4 4 b) = bu b).
  { unfold align. cbn [bu]. replace ((4 - (used b + 4) mod 4) mod 4) with 0; [reflexivity|].
    replace (used b + 4) with (used b + 1 * 4) by lia. rewrite Nat.mod_add, M by lia. reflexivity. }
  assert (B : bu (push (FOff o) b) = put 4 (Z.of_nat (used b + 4 - o)) ++ bu b).
  { change (put 4 (Z.of_nat (used (align 4 4 b) + 4 - o)) ++ bu (align 4 4 b) = put 4 (Z.of_nat (used b + 4 - o)) ++ bu b).
    unfold used. rewrite AL. reflexivity. }
  split; [exact B|]. unfold used at 1. rewrite B, app_length, put_length. reflexivity.
Qed.
Definition push_all (l : list nat) (b : build) : build := fold_right (fun o b => push (FOff o) b) b l.
Lemma push_all_spec : forall l b, used b mod 4 = 0 -> Forall (fun o => o <= used b) l -> sound b -> small (push_all l b) ->
  grows b (push_all l b) /\ sound (push_all l b) /\ used (push_all l b) = used b + 4 * length l /\
  (4 <= ma b -> ma (push_all l b) = ma b) /\
  forall k o, nth_error l k = Some o -> field_at (FOff o) (bu (push_all l b)) (used (push_all l b) - 4 * k).
Proof.
  induction l as [|o l IH]; intros b M F SB SM; cbn [push_all fold_right] in *.
  - split; [apply grows_refl|]. split; [exact SB|]. split; [cbn; lia|]. split; [reflexivity|]. intros [|k] x H; discriminate H.
  - fold (push_all l b) in *. apply Forall_cons_iff in F. destruct F as [F1 F2].
    assert (SM1 : small (push_all l b)) by (eapply more_small; [apply push_more|exact SM]).
    destruct (IH b M F2 SB SM1) as (G & SD & U & MM & X).
    assert (M1 : used (push_all l b) mod 4 = 0).
    { rewrite U. replace (used b + 4 * length l) with (used b + length l * 4) by lia. rewrite Nat.mod_add by lia. exact M. }
    destruct (push_aligned o (push_all l b) M1) as [B1 U1].
    split; [eapply grows_trans; [exact G|apply push_grows]|]. split; [apply sound_push; [exact I|exact SD]|].
    split; [rewrite U1, U; cbn [length]; lia|]. split; [intros M4; rewrite push_ma, (MM M4); cbn [size]; lia|].
    intros [|k] x H; cbn [nth_error] in H.
    + assert (x = o) by congruence. subst x. replace (used (push (FOff o) (push_all l b)) - 4 * 0) with (used (push (FOff o) (push_all l b))) by lia.
      apply push_at; [exact SM|]. lia.
    + specialize (X k x H). assert (K : k < length l) by (apply nth_error_Some; congruence).
      replace (used (push (FOff o) (push_all l b)) - 4 * S k) with (used (push_all l b) - 4 * k) by lia.
      rewrite B1. apply field_more; [exact X|]. apply nth_error_In in H. rewrite Forall_forall in F2. specialize (F2 x H).
      fold (used (push_all l b)). lia.
Qed.

Fixpoint costs {A : Type} (c : A -> Z) (l : list A) : Z := match l with [] => 0 | x :: r => 8 + c x + costs c r end%Z.
Fixpoint counts {A : Type} (n : A -> Z) (l : list A) : Z := match l with [] => 0 | x :: r => n x + counts n r end%Z.
Lemma costs_nonneg : forall A (c : A -> Z) l, (forall x, 0 <= c x)%Z -> (0 <= costs c l)%Z.
Proof. intros A c l H. induction l as [|x l IH]; cbn [costs]; [lia|]. specialize (H x). lia. Qed.
Lemma counts_nonneg : forall A (c : A -> Z) l, (forall x, 0 <= c x)%Z -> (0 <= counts c l)%Z.
Proof. intros A c l H. induction l as [|x l IH]; cbn [counts]; [lia|]. specialize (H x). lia. Qed.

Lemma passes_each : forall (bf : list Z) (run : nat -> vstate -> option vstate) A (n c : A -> Z) (vs : list A) p,
  (forall x, 0 <= n x)%Z -> (forall x, 0 <= c x)%Z ->
  p mod 4 = 0 -> p + 4 * length vs <= length bf ->
  (forall k v, nth_error vs k = Some v -> exists q, follow bf (p + 4 * k) = Some q /\ passes (run q) (n v) (c v)) ->
  forall s, (fst s + counts n vs <= max_tables)%Z -> (snd s + (costs c vs - 4 * Z.of_nat (length vs)) <= max_size)%Z ->
  exists s', ver_each bf run (length vs) p s = Some s' /\ (fst s' = fst s + counts n vs)%Z /\
             (snd s <= snd s' <= snd s + (costs c vs - 4 * Z.of_nat (length vs)))%Z.
Proof.
  intros bf run A n c vs p N0 C0. revert p. induction vs as [|v vs IH]; intros p M L X s T0 Z0; cbn [length ver_each counts costs] in *.
  - exists s. split; [reflexivity|]. split; lia.
  - pose proof (costs_nonneg _ c vs C0) as CN. pose proof (counts_nonneg _ n vs N0) as NN. specialize (N0 v) as N0v. specialize (C0 v) as C0v.
    assert (CL : (0 <= costs c vs - 8 * Z.of_nat (length vs))%Z).
    { clear - C0. induction vs as [|y vs IH]; cbn [costs length]; [lia|]. specialize (C0 y). lia. }
    destruct (X 0 v eq_refl) as (q & FQ & PQ). replace (p + 4 * 0) with p in FQ by lia.
    destruct (passes_off run bf p q _ _ M ltac:(lia) FQ PQ N0v C0v s ltac:(lia) ltac:(lia)) as (s1 & -> & F1 & Z1).
    destruct (IH (p + 4)) with (s := s1) as (s2 & E2 & F2 & Z2).
    + replace (p + 4) with (p + 1 * 4) by lia. rewrite Nat.mod_add by lia. exact M.
    + lia.
    + intros k w K. destruct (X (S k) w K) as (q' & Q1 & Q2). exists q'. replace (p + 4 + 4 * k) with (p + 4 * S k) by lia. auto.
    + lia.
    + lia.
    + rewrite E2. exists s2. split; [reflexivity|]. split; lia.
Qed.

Lemma create_vector_spec : forall A (d : list Z -> nat -> option A) (run : checker) (n c : A -> Z) l vs b o b',
  create_vector l b = (o, b') -> sound b -> small b' -> shifts d ->
  (forall x, 0 <= n x)%Z -> (forall x, 0 <= c x)%Z ->
  Forall2 (fun o v => wrote d run b o v (n v) (c v)) l vs ->
  grows b b' /\ sound b' /\ wrote (vector d) (fun bf => ver_vector bf (run bf)) b' o vs (counts n vs) (4 + costs c vs).
Proof.
  intros A d run n c l vs b o b' E SB SM SD N0 C0 F. unfold create_vector in E.
  assert (LV : length l = length vs) by (clear - F; induction F; cbn; congruence).
  set (b1 := align (4 * length l) 4 b) in *. fold (push_all l b1) in E.
  assert (S1 : sound b1) by (apply sound_align; [unfold pw; lia|exact SB]).
  assert (MA : 4 <= ma b1) by (cbn; lia).
  assert (G1 : grows b b1) by apply align_grows.
  assert (U1 : used b1 mod 4 = 0).
  { pose proof (align_mod (4 * length l) 4 b ltac:(lia)) as AM. fold b1 in AM.
    replace (used b1 + 4 * length l) with (used b1 + length l * 4) in AM by lia. rewrite Nat.mod_add in AM by lia. exact AM. }
  set (b2 := push_all l b1) in *.
  assert (EB : b' = push (FScalar 4 (Z.of_nat (length l))) b2) by congruence.
  assert (EO : o = used b') by congruence.
  assert (F1 : Forall (fun o => o <= used b1) l).
  { pose proof (more_used _ _ (proj1 G1)) as MU. remember (used b1) as u eqn:HU. clear - F MU. induction F as [|x y l vs (L & _) _ IH]; constructor; [lia|exact IH]. }
  assert (SM2 : small b2) by (eapply more_small; [apply push_more|]; rewrite EB in SM; exact SM).
  destruct (push_all_spec l b1 U1 F1 S1 SM2) as (G2 & S2 & U2 & MM & X). fold b2 in G2, S2, U2, MM, X. specialize (MM MA).
  assert (U2m : (used b2 + length (@nil Z)) mod 4 = 0).
  { cbn [length]. rewrite Nat.add_0_r, U2. replace (used b1 + 4 * length l) with (used b1 + length l * 4) by lia. rewrite Nat.mod_add by lia. exact U1. }
  (* the count *)
  assert (AL : bu (align 4 4 b2) = bu b2).
  { unfold align. cbn [bu]. replace ((4 - (used b2 + 4) mod 4) mod 4) with 0; [reflexivity|].
    replace (used b2 + 4) with (used b2 + 1 * 4) by lia. rewrite Nat.mod_add by lia. cbn [length] in U2m. rewrite Nat.add_0_r in U2m. rewrite U2m. reflexivity. }
  assert (B : bu b' = put 4 (Z.of_nat (length l)) ++ bu b2).
  { rewrite EB. change (put 4 (Z.of_nat (length l)) ++ bu (align 4 4 b2) = put 4 (Z.of_nat (length l)) ++ bu b2). rewrite AL. reflexivity. }
  assert (U : used b' = 4 + used b2) by (unfold used at 1; rewrite B, app_length, put_length; reflexivity).
  assert (G : get 4 (bu b') 0 = Some (Z.of_nat (length l))).
  { rewrite B, get_front by apply put_length. rewrite le_put, Z.mod_small; [reflexivity|].
    unfold small in SM. rewrite U in SM. change (pow 4) with (2 ^ 32)%Z. lia. }
  assert (G3 : grows b b').
  { eapply grows_trans; [exact G1|]. eapply grows_trans; [exact G2|]. rewrite EB. apply push_grows. }
  assert (S3 : sound b') by (rewrite EB; apply sound_push; [right; right; left; reflexivity|exact S2]).
  assert (MM' : ma b' = ma b1) by (rewrite EB, push_ma, MM; cbn [size]; lia).
  (* following element [k] in any buffer that ends in [b'] *)
  assert (FO : forall pre k x, nth_error l k = Some x ->
                 follow (pre ++ bu b') (length pre + (4 + 4 * k)) = Some (length (pre ++ bu b') - x)).
  { intros pre k x H. assert (K : k < length l) by (apply nth_error_Some; congruence).
    assert (XL : x <= used b1) by (rewrite Forall_forall in F1; apply F1; eapply nth_error_In; exact H).
    specialize (X k x H). cbn [field_at] in X. destruct X as [_ X]. fold (used b2) in X.
    replace (used b2 - (used b2 - 4 * k)) with (4 * k) in X by lia.
    assert (Y : follow (bu b') (4 + 4 * k) = Some (4 + (used b2 - x))).
    { rewrite B. pose proof (follow_shift (put 4 (Z.of_nat (length l))) _ _ _ X) as Y. rewrite put_length in Y. exact Y. }
    rewrite (follow_shift pre _ _ _ Y). f_equal. rewrite app_length. fold (used b'). lia. }
  split; [exact G3|]. split; [exact S3|]. split; [lia|]. split.
  - split; [fold (used b'); lia|]. rewrite EO. unfold used. rewrite Nat.sub_diag. unfold vector. rewrite G, Nat2Z.id.
    apply all_nth; [rewrite seq_length; congruence|].
    intros k x v K1 K2. apply nth_seq in K1. destruct K1 as [-> K1].
    replace (0 + 4 + 4 * (0 + k)) with (4 + 4 * k) by lia.
    destruct (nth_error l k) as [q|] eqn:NK; [|apply nth_error_None in NK; lia].
    pose proof (FO [] k q NK) as Y. change ([] ++ bu b') with (bu b') in Y. change (length [] + (4 + 4 * k)) with (4 + 4 * k) in Y. rewrite Y.
    assert (W : wrote d run b q v (n v) (c v)).
    { clear - F NK K2. revert k NK K2. induction F as [|x y l vs W _ IH]; intros [|k] A1 A2; cbn [nth_error] in *; try discriminate.
      - assert (q = x) by congruence. assert (v = y) by congruence. subst. exact W.
      - eapply IH; eassumption. }
    destruct W as (_ & H & _). apply (more_holds _ _ _ _ _ _ SD (proj1 G3)) in H. apply H.
  - intros bf [[pre BF] DV] st T0 Z0.
    assert (P : length bf - o = length pre) by (rewrite BF, app_length, EO; unfold used; lia). rewrite P.
    assert (LB : length bf = length pre + used b') by (rewrite BF, app_length; reflexivity).
    assert (PW4 : Nat.divide 4 (ma b')) by (apply pw_divide; [unfold pw; lia|exact (proj2 S3)|lia]).
    assert (U4 : used b' mod 4 = 0) by (rewrite EB; apply (push_mod (FScalar 4 _)); right; right; left; reflexivity).
    assert (PM : length pre mod 4 = 0) by (rewrite <- P; apply (mod_sub 4 (ma b')); [lia|exact PW4|exact DV|rewrite EO; exact U4|lia]).
    assert (G4 : get 4 bf (length pre) = Some (Z.of_nat (length l))) by (rewrite BF, <- (Nat.add_0_r (length pre)), get_shift; exact G).
    assert (PM4 : (length pre + 4) mod 4 = 0) by (replace (length pre + 4) with (length pre + 1 * 4) by lia; rewrite Nat.mod_add by lia; exact PM).
    pose proof (costs_nonneg _ c vs C0) as CN.
    assert (CL : (0 <= costs c vs - 8 * Z.of_nat (length vs))%Z).
    { clear - C0. induction vs as [|y vs IH]; cbn [costs length]; [lia|]. specialize (C0 y). lia. }
    pose proof (counts_nonneg _ n vs N0) as NN.
    unfold ver_vector.
    destruct (passes_len bf (length pre) 4 (length l) PM G4 PM4 ltac:(lia) st ltac:(lia) ltac:(lia)) as (s1 & -> & E1 & Z1).
    destruct (passes_each bf (run bf) A n c vs (length pre + 4) N0 C0 PM4 ltac:(lia)) with (s := s1) as (s2 & E2 & F2 & Z2).
    + intros k v K. destruct (nth_error l k) as [q|] eqn:NK; [|apply nth_error_None in NK; assert (k < length vs) by (apply nth_error_Some; congruence); lia].
      exists (length bf - q). split.
      * rewrite <- Nat.add_assoc, BF. apply FO. exact NK.
      * assert (W : wrote d run b q v (n v) (c v)).
        { clear - F NK K. revert k NK K. induction F as [|x y l vs W _ IH]; intros [|k] A1 A2; cbn [nth_error] in *; try discriminate.
          - assert (q = x) by congruence. assert (v = y) by congruence. subst. exact W.
          - eapply IH; eassumption. }
        destruct W as (_ & _ & AC). apply AC. eapply final_grows; [exact G3|exact (proj2 SB)|exact (proj2 S3)|]. split; [exists pre; exact BF|exact DV].
    + lia.
    + lia.
    + rewrite LV, E2. exists s2. split; [reflexivity|]. split; lia.
Qed.
