(** The tables of the schema: what [w_...] writes is read back, and accepted. *)
From Verif Require Import Wire WireWrite WireRead WireBuild.
From Verif Require Text.
Open Scope nat_scope.

(** ** Everything that is read is still there when more is written in front *)
Ltac sh L :=
  match goal with H : match ?e with Some _ => _ | None => None end = Some _ |- _ =>
    let x := fresh "x" in let E := fresh "E" in destruct e as [x|] eqn:E; [|discriminate H]; rewrite (L _ _ _ _ E); clear E end.
Lemma cid_shift : shifts read_cid.
Proof.
  intros pre b p v H. unfold read_cid in *. sh (pointer_shift _ _ 0 text_shift).
  sh (scalar_shift 2 1). sh (scalar_shift 2 2). sh (scalar_shift 2 3). exact H.
Qed.
Lemma cstates_shift : shifts read_cstates.
Proof.
  intros pre b p v H. unfold read_cstates in *. sh (pointer_shift _ _ 0 (vector_shift _ _ text_shift)).
  sh (pointer_shift _ _ 1 kinds_shift). exact H.
Qed.
Lemma contract_shift : shifts read_contract.
Proof.
  intros pre b p v H. unfold read_contract in *. sh (pointer_shift _ _ 0 cid_shift). sh (pointer_shift _ _ 1 cstates_shift). exact H.
Qed.
Lemma idx_shift : forall n, shifts (read_idx n).
Proof. intros n pre b p v H. unfold read_idx in *. sh (scalar_shift n 0). exact H. Qed.
Lemma num_shift : forall n, shifts (num n).
Proof. intros n pre b p v H. unfold num in *. apply (scalar_shift n 0). exact H. Qed.
Lemma inum_shift : forall n, shifts (inum n).
Proof. intros n pre b p v H. unfold inum in *. sh (scalar_shift n 0). exact H. Qed.
Lemma fb_text_shift : shifts fb_text.
Proof. intros pre b p v H. unfold fb_text in *. apply (pointer_shift _ _ 0 text_shift). exact H. Qed.
Lemma object_shift : shifts read_object.
Proof.
  intros pre b p v H. unfold read_object in *. sh (pointer_shift _ _ 0 (idx_shift 2)).
  sh (pointer_shift _ _ 1 (vector_shift _ _ (idx_shift 4))). exact H.
Qed.
Lemma union_shift : forall A (d : list Z -> nat -> option A), shifts d -> shifts (union_value d).
Proof. intros A d D pre b p v H. unfold union_value in *. sh (pointer_shift _ _ 1 D). exact H. Qed.
Lemma state_shift : shifts read_state.
Proof.
  intros pre b p v H. unfold read_state in *. sh (scalar_shift 1 0).
  destruct x as [|x|x]; do 4 (try (destruct x as [x|x|])); try exact H;
    first [sh (union_shift _ _ (num_shift 1)) | sh (union_shift _ _ (num_shift 2)) | sh (union_shift _ _ (num_shift 4))
          | sh (union_shift _ _ (num_shift 8)) | sh (union_shift _ _ (inum_shift 1)) | sh (union_shift _ _ (inum_shift 2))
          | sh (union_shift _ _ (inum_shift 4)) | sh (union_shift _ _ (inum_shift 8)) | sh (union_shift _ _ fb_text_shift)
          | sh (union_shift _ _ (idx_shift 4)) | sh (union_shift _ _ (idx_shift 2))]; exact H.
Qed.

(** Nothing is taken away (needed before anything else is known of the parts). *)
Lemma push_fields_more : forall l b locs b', push_fields l b = (locs, b') -> more b b'.
Proof.
  induction l as [|[i x] l IH]; intros b locs b' E; cbn [push_fields] in E.
  - assert (b' = b) by congruence. subst. apply more_refl.
  - destruct (push_fields l (push x b)) as [r b1] eqn:R. assert (b1 = b') by congruence. subst b1.
    eapply more_trans; [apply push_more|eapply IH; exact R].
Qed.
Lemma create_table_more : forall l b t b', create_table l b = (t, b') -> more b b'.
Proof.
  intros l b t b' E. unfold create_table in E. destruct (push_fields l b) as [locs b1] eqn:PF.
  eapply more_trans; [eapply push_fields_more; exact PF|]. eapply more_trans; [apply (align_more 4 4)|].
  destruct (find _ _) as [[w y]|] in E; assert (B := f_equal (fun q => bu (snd q)) E); cbn [snd bu] in B.
  - eexists. symmetry. exact B.
  - rewrite app_assoc in B. eexists. symmetry. exact B.
Qed.
Lemma create_string_more : forall s b o b', create_string s b = (o, b') -> more b b'.
Proof.
  intros s b o b' E. unfold create_string in E. assert (B := f_equal snd E). cbn [snd] in B. rewrite <- B.
  eapply more_trans; [apply align_more|]. eapply more_trans; [apply prepend_more|apply push_more].
Qed.
Lemma create_bytes_more : forall s b o b', create_bytes s b = (o, b') -> more b b'.
Proof.
  intros s b o b' E. unfold create_bytes in E. assert (B := f_equal snd E). cbn [snd] in B. rewrite <- B.
  eapply more_trans; [apply align_more|]. eapply more_trans; [apply prepend_more|apply push_more].
Qed.
Lemma push_all_more : forall l b, more b (push_all l b).
Proof.
  induction l as [|o l IH]; intros b; cbn [push_all fold_right]; [apply more_refl|].
  fold (push_all l b). eapply more_trans; [apply IH|apply push_more].
Qed.
Lemma create_vector_more : forall l b o b', create_vector l b = (o, b') -> more b b'.
Proof.
  intros l b o b' E. unfold create_vector in E. assert (B := f_equal snd E). cbn [snd] in B. rewrite <- B.
  eapply more_trans; [apply align_more|]. eapply more_trans; [apply push_all_more|apply push_more].
Qed.

(** ** A table that was created *)
Lemma table_wrote : forall l b t b', create_table l b = (t, b') -> sound b -> table_ok l (used b) -> small b' ->
  grows b b' /\ sound b' /\ t <= used b' /\ table_at l (bu b') t /\
  forall bf, final b' bf -> table_at l bf t /\ Nat.divide 4 (length bf) /\
    forall i x, In (i, x) l -> Nat.divide (size x) (length bf).
Proof.
  intros l b t b' E [C P] OK SM. destruct (create_table_spec _ _ _ _ E C OK SM) as (M & C' & T).
  destruct OK as (_ & _ & SA & TG). destruct (create_table_ma _ _ _ _ E SA P) as (P' & L & L4 & LS).
  split; [split; assumption|]. split; [split; assumption|].
  split; [destruct T as (v & w & T1 & _); unfold used; lia|]. split; [exact T|].
  intros bf [[pre BF] D]. split.
  - rewrite BF. apply table_more; [exact T|]. intros i o I. specialize (TG i o I). pose proof (more_used _ _ M). unfold used in *. lia.
  - split; [eapply Nat.divide_trans; [|exact D]; apply pw_divide; [unfold pw; lia|exact P'|exact L4]|].
    intros i x I. eapply Nat.divide_trans; [|exact D]. apply pw_divide; [|exact P'|eapply LS; exact I].
    apply sane_pw. rewrite Forall_forall in SA. apply (SA (i, x) I).
Qed.

Lemma passes_more : forall f g n c, (forall s, f s = g s) -> passes f n c -> passes g n c.
Proof. intros f g n c E P s T Z0. rewrite <- E. apply P; assumption. Qed.

(** ** One scalar *)
Lemma opt_ok : forall n v m, In n [1; 2; 4; 8] -> table_ok (opt 0 n v) m.
Proof.
  intros n v m H. unfold opt. destruct (v =? 0)%Z; unfold table_ok, targets; cbn [map fst].
  - split; [constructor|]. split; [intros i []|]. split; [constructor|intros i o []].
  - split; [constructor; [intros []|constructor]|]. split; [intros i [<-|[]]; lia|].
    split; [constructor; [exact H|constructor]|]. intros i o [X|[]]. discriminate X.
Qed.
Definition num_cost : Z := 36.
Lemma one_scalar : forall l n v b t b', create_table l b = (t, b') -> In n [1; 2; 4; 8] ->
  (l = [] /\ v = 0%Z \/ l = [(0, FScalar n v)]) -> sound b -> small b' ->
  grows b b' /\ sound b' /\ wrote (num n) (fun bf => ver_num bf n) b' t (v mod pow n)%Z 1 num_cost.
Proof.
  intros l n v b t b' E IN L SB SM.
  assert (OK : table_ok l (used b)).
  { destruct L as [[-> ->]| ->]; unfold table_ok, targets; cbn [map fst].
    - split; [constructor|]. split; [intros i []|]. split; [constructor|intros i o []].
    - split; [constructor; [intros []|constructor]|]. split; [intros i [<-|[]]; lia|].
      split; [constructor; [exact IN|constructor]|]. intros i o [X|[]]. discriminate X. }
  assert (N8 : 0 < n <= 8) by (destruct IN as [<-|[<-|[<-|[<-|[]]]]]; lia).
  destruct (table_wrote _ _ _ _ E SB OK SM) as (G & S' & U & T & F).
  split; [exact G|]. split; [exact S'|]. split; [exact U|]. split.
  - split; [exact U|]. unfold num. destruct L as [[-> ->]| ->].
    + rewrite (read_absent _ _ _ 0 n T eq_refl). rewrite Zmod_0_l. reflexivity.
    + apply (read_mod _ _ _ 0 n v T eq_refl).
  - intros bf FB. destruct (F bf FB) as (TB & D4 & DS).
    apply (passes_weaken _ _ (26 + 10)); [|unfold num_cost; lia].
    apply (passes_open bf l t (fun vt len => ver_field bf (ver_in bf n) vt len (length bf - t) 0) 0 10 TB D4); [lia|lia|].
    intros vt len V GT D R. destruct L as [[-> ->]| ->].
    + eapply passes_weaken; [apply (passes_absent bf [] t vt len TB V GT D R); reflexivity|lia].
    + eapply passes_weaken; [apply (passes_scalar bf _ t vt len TB V GT D R n v); [reflexivity|lia|]|lia].
      apply (DS 0 (FScalar n v)). left. reflexivity.
Qed.
Lemma wrote_map : forall A B (d : list Z -> nat -> option A) (e : list Z -> nat -> option B) (f : A -> B) run b o v n c,
  (forall b p, e b p = (x <- d b p; Some (f x))) -> wrote d run b o v n c -> wrote e run b o (f v) n c.
Proof.
  intros A B d e f run b o v n c H (U & [L D] & AC). split; [exact U|]. split; [|exact AC]. split; [exact L|]. rewrite H, D. reflexivity.
Qed.
Lemma opt_cases : forall n v, opt 0 n v = [] /\ v = 0%Z \/ opt 0 n v = [(0, FScalar n v)].
Proof. intros n v. unfold opt. destruct (Z.eqb_spec v 0); auto. Qed.

(** ** Values *)
(** What a state can hold: numbers in range, floats without a negative zero (which is not
    distinguished from 0 when writing), text that is UTF-8. *)
Definition in_format (v : fbval) : Prop :=
  match v with
  | FU8 x => 0 <= x < 2 ^ 8 | FU16 x => 0 <= x < 2 ^ 16 | FU32 x => 0 <= x < 2 ^ 32 | FU64 x => 0 <= x < 2 ^ 64
  | FI8 x => - 2 ^ 7 <= x < 2 ^ 7 | FI16 x => - 2 ^ 15 <= x < 2 ^ 15
  | FI32 x => - 2 ^ 31 <= x < 2 ^ 31 | FI64 x => - 2 ^ 63 <= x < 2 ^ 63
  | FBool _ => True
  | FF32 x => 0 <= x < 2 ^ 32 /\ (f32_eqb x 0 = true -> x = 0)
  | FF64 x => 0 <= x < 2 ^ 64 /\ (f64_eqb x 0 = true -> x = 0)
  | FFbString (Some s) => Text.valid_utf8 (string_bytes s) = true
  | FFbString None => False
  | FObjectHandle i => (i < 2 ^ 32)%N
  | FContractDataHandle i => (i < 2 ^ 16)%N
  | FNone | FOther _ => False
  end%Z.

Lemma signed_mod : forall n v, In n [1; 2; 4; 8] -> (- 2 ^ (8 * Z.of_nat n - 1) <= v < 2 ^ (8 * Z.of_nat n - 1))%Z ->
  signed n (v mod pow n) = v.
Proof.
  intros n v IN H. unfold signed, pow.
  assert (PP : (2 ^ (8 * Z.of_nat n) = 2 * 2 ^ (8 * Z.of_nat n - 1))%Z).
  { rewrite <- (Z.pow_succ_r 2 (8 * Z.of_nat n - 1)); [f_equal; lia|]. destruct IN as [<-|[<-|[<-|[<-|[]]]]]; lia. }
  assert (P1 : (0 < 2 ^ (8 * Z.of_nat n - 1))%Z) by (apply Z.pow_pos_nonneg; destruct IN as [<-|[<-|[<-|[<-|[]]]]]; lia).
  rewrite PP. set (h := (2 ^ (8 * Z.of_nat n - 1))%Z) in *. clearbody h.
  destruct (Z.leb_spec 0 v).
  - rewrite Z.mod_small by lia. replace (v <? h)%Z with true by (symmetry; apply Z.ltb_lt; lia). reflexivity.
  - replace (v mod (2 * h))%Z with (v + 2 * h)%Z.
    + replace (v + 2 * h <? h)%Z with false by (symmetry; apply Z.ltb_ge; lia). lia.
    + rewrite <- (Z_mod_plus_full v 1 (2 * h)). rewrite Z.mod_small by lia. lia.
Qed.

(** The reader and the check of the table of a value, given its tag. *)
Definition value_cost (v : fbval) : Z := match v with FFbString (Some s) => (32 + text_cost s)%Z | _ => num_cost end.
Definition value_ok (v : fbval) (b : build) (p : nat) : Prop :=
  exists (A : Type) (d : list Z -> nat -> option A) (run : checker) (x : A) (mk : A -> fbval),
    wrote d run b p x 1 (value_cost v) /\ mk x = v /\ shifts d /\
    (forall b t, scalar 1 b t 0 = Some (tag_byte v) -> read_state b t = (y <- union_value d b t; Some (mk y))) /\
    (forall bf q s, ver_union bf (tag_byte v) q s = ver_off bf (run bf) q s).

Lemma union_read : forall A (d : list Z -> nat -> option A) b t o v, pointer (fun _ q => Some q) b t 1 = Some (Some (length b - o)) ->
  holds d b o v -> union_value d b t = Some v.
Proof.
  intros A d b t o v P [_ H]. unfold union_value, pointer in *. destruct (slot b t 1) as [[p|]|]; try discriminate P.
  destruct (follow b p) as [q|]; [|discriminate P]. assert (q = length b - o) by congruence. subst q. rewrite H. reflexivity.
Qed.
Lemma value_wrote : forall A (d : list Z -> nat -> option A) (run : checker) (x : A) (mk : A -> fbval) v b p,
  wrote d run b p x 1 (value_cost v) -> mk x = v ->
  (forall b t, scalar 1 b t 0 = Some (tag_byte v) -> read_state b t = (y <- union_value d b t; Some (mk y))) ->
  (forall bf q s, ver_union bf (tag_byte v) q s = ver_off bf (run bf) q s) -> shifts d ->
  value_ok v b p.
Proof. intros A d run x mk v b p W MK RD VR SD. exists A, d, run, x, mk. auto. Qed.
Ltac shs := first [apply num_shift|apply inum_shift|apply idx_shift|apply fb_text_shift].

Lemma w_value_spec : forall v b p b', w_value v b = (p, b') -> in_format v -> sound b -> small b' ->
  grows b b' /\ sound b' /\ value_ok v b' p.
Proof.
  intros v b p b' E F SB SM.
  assert (RDs : forall bb t (v0 : fbval), scalar 1 bb t 0 = Some (tag_byte v0) -> read_state bb t = read_state bb t) by reflexivity.
  destruct v as [x|x|x|x|x|x|x|x|x|x|x|[s|]|i|i| |z]; cbn [w_value in_format] in *; try contradiction;
  lazymatch goal with
  | E : create_table (opt 0 ?n ?x) _ = _ |- grows _ _ /\ sound _ /\ value_ok ?v _ _ =>
      destruct (one_scalar _ n x _ _ _ E ltac:(cbn; tauto) (opt_cases n x) SB SM) as (G & S' & W)
  | E : create_table (if ?x then [(0, FScalar 1 1%Z)] else []) _ = _ |- _ =>
      destruct (one_scalar _ 1 (if x then 1 else 0)%Z _ _ _ E ltac:(cbn; tauto) ltac:(destruct x; auto) SB SM) as (G & S' & W)
  | E : create_table (if f32_eqb ?x 0 then _ else _) _ = _, F : _ /\ _ |- _ =>
      destruct F as [F F0];
      destruct (one_scalar _ 4 x _ _ _ E ltac:(cbn; tauto) ltac:(destruct (f32_eqb x 0); auto) SB SM) as (G & S' & W)
  | E : create_table (if f64_eqb ?x 0 then _ else _) _ = _, F : _ /\ _ |- _ =>
      destruct F as [F F0];
      destruct (one_scalar _ 8 x _ _ _ E ltac:(cbn; tauto) ltac:(destruct (f64_eqb x 0); auto) SB SM) as (G & S' & W)
  | _ => idtac
  end; try (split; [exact G|]; split; [exact S'|]).
  - apply (value_wrote _ (num 1) (fun bf => ver_num bf 1) (x mod pow 1)%Z FU8); [exact W|f_equal; apply Z.mod_small; exact F| | |shs];
      [intros bb t T; unfold read_state; rewrite T; reflexivity|reflexivity].
  - apply (value_wrote _ (num 2) (fun bf => ver_num bf 2) (x mod pow 2)%Z FU16); [exact W|f_equal; apply Z.mod_small; exact F| | |shs];
      [intros bb t T; unfold read_state; rewrite T; reflexivity|reflexivity].
  - apply (value_wrote _ (num 4) (fun bf => ver_num bf 4) (x mod pow 4)%Z FU32); [exact W|f_equal; apply Z.mod_small; exact F| | |shs];
      [intros bb t T; unfold read_state; rewrite T; reflexivity|reflexivity].
  - apply (value_wrote _ (num 8) (fun bf => ver_num bf 8) (x mod pow 8)%Z FU64); [exact W|f_equal; apply Z.mod_small; exact F| | |shs];
      [intros bb t T; unfold read_state; rewrite T; reflexivity|reflexivity].
  - apply (value_wrote _ (inum 1) (fun bf => ver_num bf 1) (signed 1 (x mod pow 1))%Z FI8);
      [apply (wrote_map _ _ (num 1)); [reflexivity|exact W]|f_equal; apply signed_mod; [cbn; tauto|exact F]| | |shs];
      [intros bb t T; unfold read_state; rewrite T; reflexivity|reflexivity].
  - apply (value_wrote _ (inum 2) (fun bf => ver_num bf 2) (signed 2 (x mod pow 2))%Z FI16);
      [apply (wrote_map _ _ (num 2)); [reflexivity|exact W]|f_equal; apply signed_mod; [cbn; tauto|exact F]| | |shs];
      [intros bb t T; unfold read_state; rewrite T; reflexivity|reflexivity].
  - apply (value_wrote _ (inum 4) (fun bf => ver_num bf 4) (signed 4 (x mod pow 4))%Z FI32);
      [apply (wrote_map _ _ (num 4)); [reflexivity|exact W]|f_equal; apply signed_mod; [cbn; tauto|exact F]| | |shs];
      [intros bb t T; unfold read_state; rewrite T; reflexivity|reflexivity].
  - apply (value_wrote _ (inum 8) (fun bf => ver_num bf 8) (signed 8 (x mod pow 8))%Z FI64);
      [apply (wrote_map _ _ (num 8)); [reflexivity|exact W]|f_equal; apply signed_mod; [cbn; tauto|exact F]| | |shs];
      [intros bb t T; unfold read_state; rewrite T; reflexivity|reflexivity].
  - apply (value_wrote _ (num 1) (fun bf => ver_num bf 1) ((if x then 1 else 0) mod pow 1)%Z (fun v => FBool (negb (v =? 0)%Z)));
      [exact W|destruct x; reflexivity| | |shs];
      [intros bb t T; unfold read_state; rewrite T; reflexivity|reflexivity].
  - apply (value_wrote _ (num 4) (fun bf => ver_num bf 4) (x mod pow 4)%Z FF32); [exact W|f_equal; apply Z.mod_small; exact F| | |shs];
      [intros bb t T; unfold read_state; rewrite T; reflexivity|reflexivity].
  - apply (value_wrote _ (num 8) (fun bf => ver_num bf 8) (x mod pow 8)%Z FF64); [exact W|f_equal; apply Z.mod_small; exact F| | |shs];
      [intros bb t T; unfold read_state; rewrite T; reflexivity|reflexivity].
  - destruct (create_string s b) as [o b1] eqn:CS.
    assert (OKT : forall m, o <= m -> table_ok [(0, FOff o)] m).
    { intros m L. unfold table_ok, targets. cbn [map fst]. split; [constructor; [intros []|constructor]|].
      split; [intros i [<-|[]]; lia|]. split; [constructor; [exact I|constructor]|]. intros i o' [X|[]]. assert (o' = o) by congruence. lia. }
    assert (SM1 : small b1).
    { eapply more_small; [|exact SM]. eapply create_table_more; exact E. }
    destruct (create_string_spec _ _ _ _ CS SB SM1 F) as (G1 & S1 & W1).
    destruct (table_wrote _ _ _ _ E S1 (OKT _ (proj1 W1)) SM) as (G & S' & U & T & FB).
    split; [eapply grows_trans; eassumption|]. split; [exact S'|].
    apply (wrote_grows _ _ _ _ _ _ _ _ _ text_shift G (proj2 S1) (proj2 S')) in W1. destruct W1 as (U1 & H1 & A1).
    apply (value_wrote _ fb_text ver_fb_text (Some s) FFbString); [|reflexivity| |reflexivity|shs].
    + split; [exact U|]. split; [split; [exact U|]; unfold fb_text; apply (read_pointer _ text _ _ _ 0 o s T eq_refl H1)|].
      intros bf FI. destruct (FB bf FI) as (TB & D4 & _). cbn [value_cost].
      apply (passes_weaken _ _ (26 + (6 + text_cost s))); [|unfold text_cost; lia].
      apply (passes_open bf _ p (fun vt len => ver_field bf (ver_off bf (ver_text bf)) vt len (length bf - p) 0) 0 _ TB D4); [lia|unfold text_cost; lia|].
      intros vt len V GT D R. apply (passes_pointer bf _ p vt len TB V GT D R _ o 0 (text_cost s) 0 eq_refl D4); [|lia|unfold text_cost; lia].
      apply A1. exact FI.
    + intros bb t T'. unfold read_state. rewrite T'. reflexivity.
  - apply (value_wrote _ (read_idx 4) (fun bf => ver_num bf 4) (Z.to_N (Z.of_N i mod pow 4))%Z FObjectHandle);
      [apply (wrote_map _ _ (num 4) _ Z.to_N); [reflexivity|exact W]|f_equal; rewrite Z.mod_small; [apply N2Z.id|]| | |shs];
      [change (pow 4) with (2 ^ 32)%Z; lia|intros bb t T; unfold read_state; rewrite T; reflexivity|reflexivity].
  - apply (value_wrote _ (read_idx 2) (fun bf => ver_num bf 2) (Z.to_N (Z.of_N i mod pow 2))%Z FContractDataHandle);
      [apply (wrote_map _ _ (num 2) _ Z.to_N); [reflexivity|exact W]|f_equal; rewrite Z.mod_small; [apply N2Z.id|]| | |shs];
      [change (pow 2) with (2 ^ 16)%Z; lia|intros bb t T; unfold read_state; rewrite T; reflexivity|reflexivity].
Qed.

(** ** States, handles, objects *)
Lemma two_ok : forall i x j y m, sane x -> sane y -> i < 8 -> j < 8 -> i <> j ->
  (match x with FOff o => o <= m | _ => True end) -> (match y with FOff o => o <= m | _ => True end) ->
  table_ok [(i, x); (j, y)] m.
Proof.
  intros i x j y m SX SY I8 J8 D TX TY. unfold table_ok, targets. cbn [map fst]. split; [|split; [|split]].
  - constructor; [intros [H|[]]; congruence|constructor; [intros []|constructor]].
  - intros k [<-|[<-|[]]]; assumption.
  - constructor; [exact SX|constructor; [exact SY|constructor]].
  - intros k o [H|[H|[]]]; [assert (x = FOff o) by congruence|assert (y = FOff o) by congruence]; subst; assumption.
Qed.

Definition state_cost (v : fbval) : Z := (35 + value_cost v)%Z.
Lemma value_cost_nonneg : forall v, (0 <= value_cost v)%Z.
Proof. intros v. unfold value_cost, num_cost, text_cost. destruct v as [x|x|x|x|x|x|x|x|x|x|x|[s|]|i|i| |z]; lia. Qed.
Lemma tag_range : forall v, in_format v -> (1 <= tag_byte v <= 14)%Z.
Proof. intros v H. destruct v as [x|x|x|x|x|x|x|x|x|x|x|[s|]|i|i| |z]; cbn in H |- *; try contradiction; lia. Qed.
Lemma tables_two : forall v, in_format v -> tables_state v = 2%Z.
Proof. intros v H. destruct v as [x|x|x|x|x|x|x|x|x|x|x|[s|]|i|i| |z]; cbn in H |- *; try contradiction; reflexivity. Qed.

Lemma w_state_spec : forall v b t b', w_state v b = (t, b') -> in_format v -> sound b -> small b' ->
  grows b b' /\ sound b' /\ wrote read_state ver_state b' t v (tables_state v) (state_cost v).
Proof.
  intros v b t b' E F SB SM. unfold w_state in E. destruct (w_value v b) as [p b1] eqn:WV.
  pose proof (tag_range v F) as TR.
  assert (OT : opt 0 1 (tag_byte v) = [(0, FScalar 1 (tag_byte v))]).
  { unfold opt. replace (tag_byte v =? 0)%Z with false by (symmetry; apply Z.eqb_neq; lia). reflexivity. }
  rewrite OT in E.
  assert (SM1 : small b1) by (eapply more_small; [eapply create_table_more; exact E|exact SM]).
  destruct (w_value_spec _ _ _ _ WV F SB SM1) as (G1 & S1 & (A & d & run & x & mk & W & MK & SD & RD & VR)).
  assert (OK : table_ok [(1, FOff p); (0, FScalar 1 (tag_byte v))] (used b1)).
  { apply two_ok; [exact I|left; reflexivity|lia|lia|lia|exact (proj1 W)|exact I]. }
  destruct (table_wrote _ _ _ _ E S1 OK SM) as (G & S' & U & T & FB).
  split; [eapply grows_trans; eassumption|]. split; [exact S'|]. split; [exact U|].
  apply (wrote_grows _ _ _ _ _ _ _ _ _ SD G (proj2 S1) (proj2 S')) in W. destruct W as (UW & HW & AW).
  rewrite (tables_two v F). pose proof (value_cost_nonneg v) as VC. split.
  - split; [exact U|]. rewrite (RD (bu b') (length (bu b') - t)).
    + assert (UV : union_value d (bu b') (length (bu b') - t) = Some x).
      { unfold union_value. rewrite (read_pointer _ d _ _ _ 1 p x T eq_refl HW). reflexivity. }
      rewrite UV. congruence.
    + apply (read_scalar _ _ _ 0 1 _ T eq_refl). change (pow 1) with 256%Z. lia.
  - intros bf FI. destruct (FB bf FI) as (TB & D4 & DS).
    replace 2%Z with (1 + 1)%Z by lia.
    unfold state_cost. replace (35 + value_cost v)%Z with (26 + (9 + value_cost v))%Z by lia.
    unfold ver_state.
    apply (passes_open bf _ t (fun vt len s =>
      v0 <- ver_slot bf vt len (length bf - t) 1 s; let '(val, s0) := v0 in
      k <- ver_slot bf vt len (length bf - t) 0 s0; let '(key, s1) := k in
      match key, val with
      | None, None => Some s1
      | Some k0, Some v1 => s2 <- ver_in bf 1 k0 s1; tag <- get 1 bf k0; ver_union bf tag v1 s2
      | _, _ => None
      end) 1 (9 + value_cost v) TB D4); [lia|lia|].
    intros vt len V GT D R s T0 Z0.
    destruct (passes_slot bf _ t vt len TB V GT D R 1 s ltac:(lia) ltac:(lia)) as (s1 & r1 & -> & F1 & Z1 & X1).
    destruct (passes_slot bf _ t vt len TB V GT D R 0 s1 ltac:(lia) ltac:(lia)) as (s2 & r2 & -> & F2 & Z2 & X2).
    change (lookup 1 [(1, FOff p); (0, FScalar 1 (tag_byte v))]) with (Some (FOff p)) in X1.
    change (lookup 0 [(1, FOff p); (0, FScalar 1 (tag_byte v))]) with (Some (FScalar 1 (tag_byte v))) in X2.
    destruct X1 as (o1 & -> & M1 & L1 & FA1). destruct X2 as (o2 & -> & M2 & L2 & FA2). cbn [size] in *.
    destruct (passes_in bf 1 (length bf - o2) (Nat.mod_1_r _) ltac:(lia) s2 ltac:(lia) ltac:(lia)) as (s3 & -> & F3 & Z3).
    destruct FA2 as [_ FA2]. rewrite FA2, Z.mod_small by (change (pow 1) with 256%Z; lia). rewrite VR.
    destruct FA1 as [_ FA1].
    assert (PM : (length bf - o1) mod 4 = 0) by (apply (mod_sub 4 4); [lia|apply Nat.divide_refl|exact D4|exact M1|lia]).
    destruct (passes_off (run bf) bf _ _ 1 (value_cost v) PM ltac:(lia) FA1 (AW bf FI) ltac:(lia) VC s3 ltac:(lia) ltac:(lia)) as (s4 & -> & F4 & Z4).
    exists s4. split; [reflexivity|]. split; lia.
Qed.

Lemma handle_spec : forall n i b t b', create_table (opt 0 n (Z.of_N i)) b = (t, b') -> In n [1; 2; 4; 8] ->
  (Z.of_N i < pow n)%Z -> sound b -> small b' ->
  grows b b' /\ sound b' /\ wrote (read_idx n) (fun bf => ver_num bf n) b' t i 1 num_cost.
Proof.
  intros n i b t b' E IN L SB SM. destruct (one_scalar _ n (Z.of_N i) _ _ _ E IN (opt_cases n _) SB SM) as (G & S' & W).
  split; [exact G|]. split; [exact S'|].
  replace i with (Z.to_N (Z.of_N i mod pow n)) at 1 by (rewrite Z.mod_small by lia; apply N2Z.id).
  apply (wrote_map _ _ (num n) _ Z.to_N); [reflexivity|exact W].
Qed.

Definition object_cost (o : fb_object) : Z := (26 + (6 + num_cost) + (6 + (4 + costs (fun _ => num_cost) (some_list (fo_states o)))))%Z.
Lemma counts_one : forall A (l : list A), counts (fun _ => 1%Z) l = Z.of_nat (length l).
Proof. induction l as [|x l IH]; cbn [counts length]; lia. Qed.
Lemma w_object_spec : forall ct c l idx b t b', w_object ct l b = (t, b') -> sound b -> small b' ->
  wrote (read_idx 2) (fun bf => ver_num bf 2) b ct c 1 num_cost ->
  Forall2 (fun o i => wrote (read_idx 4) (fun bf => ver_num bf 4) b o i 1 num_cost) l idx ->
  grows b b' /\ sound b' /\
  wrote read_object ver_object b' t (mkFbObject (Some c) (Some idx)) (tables_object (mkFbObject (Some c) (Some idx)))
        (object_cost (mkFbObject (Some c) (Some idx))).
Proof.
  intros ct c l idx b t b' E SB SM WC WI. unfold w_object in E. destruct (create_vector l b) as [v b1] eqn:CV.
  assert (SM1 : small b1) by (eapply more_small; [eapply create_table_more; exact E|exact SM]).
  assert (N36 : (0 <= num_cost)%Z) by (unfold num_cost; lia).
  destruct (create_vector_spec _ (read_idx 4) (fun bf => ver_num bf 4) (fun _ => 1%Z) (fun _ => num_cost) l idx _ _ _ CV SB SM1
              (idx_shift 4) (fun _ => Z.le_0_1) (fun _ => N36) WI) as (G1 & S1 & W1).
  apply (wrote_grows _ _ _ _ _ _ _ _ _ (idx_shift 2) G1 (proj2 SB) (proj2 S1)) in WC.
  assert (OK : table_ok [(1, FOff v); (0, FOff ct)] (used b1)).
  { apply two_ok; [exact I|exact I|lia|lia|lia|exact (proj1 W1)|exact (proj1 WC)]. }
  destruct (table_wrote _ _ _ _ E S1 OK SM) as (G & S' & U & T & FB).
  split; [eapply grows_trans; eassumption|]. split; [exact S'|]. split; [exact U|].
  apply (wrote_grows _ _ _ _ _ _ _ _ _ (idx_shift 2) G (proj2 S1) (proj2 S')) in WC.
  apply (wrote_grows _ _ _ _ _ _ _ _ _ (vector_shift _ _ (idx_shift 4)) G (proj2 S1) (proj2 S')) in W1.
  destruct WC as (UC & HC & AC). destruct W1 as (UV & HV & AV). split.
  - split; [exact U|]. unfold read_object. rewrite (read_pointer _ _ _ _ _ 0 _ _ T eq_refl HC), (read_pointer _ _ _ _ _ 1 _ _ T eq_refl HV). reflexivity.
  - intros bf FI. destruct (FB bf FI) as (TB & D4 & DS). unfold tables_object, object_cost. cbn [fo_contract fo_states one some_list].
    pose proof (costs_nonneg _ (fun _ : N => num_cost) idx (fun _ => N36)) as CN.
    replace (1 + 1 + Z.of_nat (length idx))%Z with (1 + (1 + Z.of_nat (length idx)))%Z by lia.
    replace (26 + (6 + num_cost) + (6 + (4 + costs (fun _ => num_cost) idx)))%Z with (26 + ((6 + num_cost) + (6 + (4 + costs (fun _ => num_cost) idx))))%Z by lia.
    apply (passes_open bf _ t (fun vt len s =>
      s0 <- ver_field bf (ver_off bf (ver_num bf 2)) vt len (length bf - t) 0 s;
      ver_field bf (ver_off bf (ver_vector bf (ver_num bf 4))) vt len (length bf - t) 1 s0) _ _ TB D4); [lia|lia|].
    intros vt len V GT D R. apply passes_seq; try lia.
    + apply (passes_pointer bf _ t vt len TB V GT D R _ ct 1 num_cost 0 eq_refl D4); [apply AC; exact FI|lia|lia].
    + rewrite <- (counts_one N idx).
      apply (passes_pointer bf _ t vt len TB V GT D R _ v _ _ 1 eq_refl D4); [apply AV; exact FI|rewrite counts_one; lia|lia].
Qed.

(** ** Contracts *)
Definition cid_cost (name : string) : Z := (26 + (6 + text_cost name) + 12)%Z.
Definition cstates_cost (names : list string) (n : nat) : Z := (26 + (6 + (4 + costs text_cost names)) + (6 + (4 + Z.of_nat n)))%Z.
Definition contract_cost (name : string) (names : list string) (n : nat) : Z :=
  (26 + (6 + cid_cost name) + (6 + cstates_cost names n))%Z.

Definition add_string (a : list nat * build) (s : string) : list nat * build :=
  let '(l, b) := a in let '(o, b) := create_string s b in (l ++ [o], b).
Lemma strings_more : forall names l b l' b', fold_left add_string names (l, b) = (l', b') -> more b b'.
Proof.
  induction names as [|s names IH]; intros l b l' b' E; cbn [fold_left] in E.
  - assert (b' = b) by congruence. subst. apply more_refl.
  - unfold add_string at 2 in E. destruct (create_string s b) as [o b1] eqn:CS.
    eapply more_trans; [eapply create_string_more; exact CS|eapply IH; exact E].
Qed.
Lemma strings_spec : forall names l done b l' b', fold_left add_string names (l, b) = (l', b') -> sound b -> small b' ->
  Forall (fun s => Text.valid_utf8 (string_bytes s) = true) names ->
  Forall2 (fun o s => wrote text ver_text b o s 0 (text_cost s)) l done ->
  grows b b' /\ sound b' /\ Forall2 (fun o s => wrote text ver_text b' o s 0 (text_cost s)) l' (done ++ names).
Proof.
  induction names as [|s names IH]; intros l done b l' b' E SB SM F W; cbn [fold_left] in E.
  - assert (b' = b) by congruence. assert (l' = l) by congruence. subst. rewrite app_nil_r. split; [apply grows_refl|]. split; assumption.
  - unfold add_string at 2 in E. destruct (create_string s b) as [o b1] eqn:CS.
    assert (SM1 : small b1) by (eapply more_small; [eapply strings_more; exact E|exact SM]).
    apply Forall_cons_iff in F. destruct F as [F1 F2].
    destruct (create_string_spec _ _ _ _ CS SB SM1 F1) as (G1 & S1 & W1).
    destruct (IH (l ++ [o]) (done ++ [s]) b1 l' b' E S1 SM F2) as (G2 & S2 & W2).
    + apply Forall2_app; [|constructor; [exact W1|constructor]].
      clear - W G1 SB S1. induction W as [|x y l done X _ IH]; constructor; [|exact IH].
      eapply wrote_grows; [apply text_shift|exact G1|exact (proj2 SB)|exact (proj2 S1)|exact X].
    + split; [eapply grows_trans; eassumption|]. split; [exact S2|]. rewrite <- app_assoc in W2. exact W2.
Qed.

Lemma cid_spec : forall n name (v1 v2 v3 : N) b t b',
  create_table ((0, FOff n) :: opt 3 2 (Z.of_N v3) ++ opt 2 2 (Z.of_N v2) ++ opt 1 2 (Z.of_N v1)) b = (t, b') ->
  sound b -> small b' -> (v1 < 2 ^ 16)%N -> (v2 < 2 ^ 16)%N -> (v3 < 2 ^ 16)%N -> wrote text ver_text b n name 0 (text_cost name) ->
  grows b b' /\ sound b' /\ wrote read_cid ver_cid b' t (mkFbCid (Some name) (v1, v2, v3)) 1 (cid_cost name).
Proof.
  intros n name v1 v2 v3 b t b' E SB SM V1 V2 V3 WN.
  set (l := (0, FOff n) :: opt 3 2 (Z.of_N v3) ++ opt 2 2 (Z.of_N v2) ++ opt 1 2 (Z.of_N v1)) in *.
  assert (OK : table_ok l (used b)).
  { destruct WN as [UN _]. unfold l, opt, table_ok, targets.
    destruct (Z.of_N v1 =? 0)%Z, (Z.of_N v2 =? 0)%Z, (Z.of_N v3 =? 0)%Z; cbn [app map fst];
      (split; [repeat (constructor; [cbn [In]; lia|]); constructor|]);
      (split; [intros i; cbn [In]; lia|]);
      (split; [repeat (constructor; [cbn; tauto|]); constructor|]);
      intros i o H; cbn [In] in H; repeat (destruct H as [H|H]; [try discriminate H; assert (o = n) by congruence; lia|]); destruct H. }
  assert (L0 : lookup 0 l = Some (FOff n)) by reflexivity.
  assert (LK : forall i v, In (i, v) [(1, v1); (2, v2); (3, v3)] ->
    lookup i l = if (Z.of_N v =? 0)%Z then None else Some (FScalar 2 (Z.of_N v))).
  { intros i v H. cbn [In] in H. unfold l, opt, lookup.
    destruct H as [H|[H|[H|[]]]]; [assert (i = 1 /\ v = v1) as [-> ->] by (split; congruence)|assert (i = 2 /\ v = v2) as [-> ->] by (split; congruence)
      |assert (i = 3 /\ v = v3) as [-> ->] by (split; congruence)];
    destruct (Z.of_N v1 =? 0)%Z, (Z.of_N v2 =? 0)%Z, (Z.of_N v3 =? 0)%Z; reflexivity. }
  clearbody l.
  destruct (table_wrote _ _ _ _ E SB OK SM) as (G & S' & U & T & FB).
  split; [exact G|]. split; [exact S'|]. split; [exact U|].
  apply (wrote_grows _ _ _ _ _ _ _ _ _ text_shift G (proj2 SB) (proj2 S')) in WN. destruct WN as (UN & HN & AN).
  assert (SC : forall i v, In (i, v) [(1, v1); (2, v2); (3, v3)] -> scalar 2 (bu b') (length (bu b') - t) i = Some (Z.of_N v)).
  { intros i v H. specialize (LK i v H). destruct (Z.eqb_spec (Z.of_N v) 0) as [Z0|Z0].
    - rewrite Z0. apply (read_absent _ _ _ _ _ T LK).
    - apply (read_scalar _ _ _ _ _ _ T LK). change (pow 2) with (2 ^ 16)%Z. cbn [In] in H.
      assert (v = v1 \/ v = v2 \/ v = v3) as VV by (destruct H as [H|[H|[H|[]]]]; [left|right; left|right; right]; congruence). lia. }
  split.
  - split; [exact U|]. unfold read_cid. rewrite (read_pointer _ _ _ _ _ 0 _ _ T L0 HN).
    rewrite (SC 1 v1), (SC 2 v2), (SC 3 v3) by (cbn; tauto). rewrite !N2Z.id. reflexivity.
  - intros bf FI. destruct (FB bf FI) as (TB & D4 & DS). unfold cid_cost.
    replace 1%Z with (1 + (0 + (0 + (0 + 0))))%Z by lia.
    replace (26 + (6 + text_cost name) + 12)%Z with (26 + ((6 + text_cost name) + (4 + (4 + 4))))%Z by lia.
    assert (TC : (0 <= text_cost name)%Z) by (unfold text_cost; lia).
    apply (passes_open bf _ t (fun vt len s =>
      s0 <- ver_field bf (ver_off bf (ver_text bf)) vt len (length bf - t) 0 s;
      s1 <- ver_field bf (ver_in bf 2) vt len (length bf - t) 1 s0;
      s2 <- ver_field bf (ver_in bf 2) vt len (length bf - t) 2 s1;
      ver_field bf (ver_in bf 2) vt len (length bf - t) 3 s2) _ _ TB D4); [lia|lia|].
    intros vt len V GT D R.
    assert (D2 : Nat.divide 2 (length bf)) by (eapply Nat.divide_trans; [|exact D4]; exists 2; reflexivity).
    assert (PS : forall i v, In (i, v) [(1, v1); (2, v2); (3, v3)] -> passes (ver_field bf (ver_in bf 2) vt len (length bf - t) i) 0 4).
    { intros i v H. specialize (LK i v H). destruct (Z.of_N v =? 0)%Z.
      - eapply passes_weaken; [apply (passes_absent bf l t vt len TB V GT D R _ _ LK)|lia].
      - apply (passes_scalar bf l t vt len TB V GT D R 2 _ _ LK); [lia|exact D2]. }
    apply passes_seq; try lia; [apply (passes_pointer bf l t vt len TB V GT D R _ n 0 _ 0 L0 D4); [apply AN; exact FI|lia|exact TC]|].
    apply passes_seq; try lia; [apply (PS 1 v1); cbn; tauto|].
    apply passes_seq; try lia; [apply (PS 2 v2); cbn; tauto|apply (PS 3 v3); cbn; tauto].
Qed.

Definition contract_of (name : string) (ver : N * N * N) (names : list string) (ks : list Z) : fb_contract :=
  mkFbContract (Some (mkFbCid (Some name) ver)) (Some (mkFbCstates (Some names) (Some (map kind_of_byte ks)))).


Lemma w_contract_spec : forall name v1 v2 v3 names ks b t b', w_contract name (v1, v2, v3) names ks b = (t, b') ->
  sound b -> small b' -> (v1 < 2 ^ 16)%N -> (v2 < 2 ^ 16)%N -> (v3 < 2 ^ 16)%N -> utf8 name -> Forall utf8 names ->
  grows b b' /\ sound b' /\
  wrote read_contract ver_contract b' t (contract_of name (v1, v2, v3) names ks) 3 (contract_cost name names (length ks)).
Proof.
  intros name v1 v2 v3 names ks b t b' E SB SM V1 V2 V3 UN UNS. unfold w_contract in E.
  destruct (create_string name b) as [n b1] eqn:E1.
  destruct (create_table ((0, FOff n) :: opt 3 2 (Z.of_N v3) ++ opt 2 2 (Z.of_N v2) ++ opt 1 2 (Z.of_N v1)) b1) as [cid b2] eqn:E2.
  change (fun (a : list nat * build) (s : string) => let '(l, b) := a in let '(o, b0) := create_string s b in (l ++ [o], b0)) with add_string in E.
  destruct (fold_left add_string names ([], b2)) as [os b3] eqn:E3.
  destruct (create_vector os b3) as [nv b4] eqn:E4. destruct (create_bytes ks b4) as [kv b5] eqn:E5.
  destruct (create_table [(1, FOff kv); (0, FOff nv)] b5) as [cs b6] eqn:E6.
  assert (SM6 : small b6) by (eapply more_small; [eapply create_table_more; exact E|exact SM]).
  assert (SM5 : small b5) by (eapply more_small; [eapply create_table_more; exact E6|exact SM6]).
  assert (SM4 : small b4) by (eapply more_small; [eapply create_bytes_more; exact E5|exact SM5]).
  assert (SM3 : small b3) by (eapply more_small; [eapply create_vector_more; exact E4|exact SM4]).
  assert (SM2 : small b2) by (eapply more_small; [eapply strings_more; exact E3|exact SM3]).
  assert (SM1 : small b1) by (eapply more_small; [eapply create_table_more; exact E2|exact SM2]).
  destruct (create_string_spec _ _ _ _ E1 SB SM1 UN) as (G1 & S1 & W1).
  destruct (cid_spec _ _ _ _ _ _ _ _ E2 S1 SM2 V1 V2 V3 W1) as (G2 & S2 & W2).
  destruct (strings_spec _ _ [] _ _ _ E3 S2 SM3 UNS (Forall2_nil _)) as (G3 & S3 & W3). cbn [app] in W3.
  assert (TC : forall s, (0 <= text_cost s)%Z) by (intros s; unfold text_cost; lia).
  destruct (create_vector_spec _ text ver_text (fun _ => 0%Z) text_cost _ _ _ _ _ E4 S3 SM4 text_shift (fun _ => Z.le_refl 0) TC W3) as (G4 & S4 & W4).
  destruct (create_bytes_spec _ _ _ _ E5 S4 SM5) as (G5 & S5 & W5).
  assert (C0 : counts (fun _ : string => 0%Z) names = 0%Z) by (clear; induction names; cbn [counts]; lia).
  rewrite C0 in W4. pose proof (costs_nonneg _ text_cost names TC) as CN.
  apply (wrote_grows _ _ _ _ _ _ _ _ _ (vector_shift _ _ text_shift) G5 (proj2 S4) (proj2 S5)) in W4.
  assert (OK6 : table_ok [(1, FOff kv); (0, FOff nv)] (used b5)) by (apply two_ok; [exact I|exact I|lia|lia|lia|exact (proj1 W5)|exact (proj1 W4)]).
  destruct (table_wrote _ _ _ _ E6 S5 OK6 SM6) as (G6 & S6 & U6 & T6 & FB6).
  apply (wrote_grows _ _ _ _ _ _ _ _ _ (vector_shift _ _ text_shift) G6 (proj2 S5) (proj2 S6)) in W4.
  apply (wrote_grows _ _ _ _ _ _ _ _ _ kinds_shift G6 (proj2 S5) (proj2 S6)) in W5.
  assert (W6 : wrote read_cstates ver_cstates b6 cs (mkFbCstates (Some names) (Some (map kind_of_byte ks))) 1 (cstates_cost names (length ks))).
  { destruct W4 as (U4 & H4 & A4). destruct W5 as (U5 & H5 & A5). split; [exact U6|]. split.
    - split; [exact U6|]. unfold read_cstates.
      rewrite (read_pointer _ _ _ _ _ 0 _ _ T6 eq_refl H4), (read_pointer _ _ _ _ _ 1 _ _ T6 eq_refl H5). reflexivity.
    - intros bf FI. destruct (FB6 bf FI) as (TB & D4 & DS). unfold cstates_cost.
      replace 1%Z with (1 + (0 + 0))%Z by lia.
      replace (26 + (6 + (4 + costs text_cost names)) + (6 + (4 + Z.of_nat (length ks))))%Z
        with (26 + ((6 + (4 + costs text_cost names)) + (6 + bytes_cost ks)))%Z by (unfold bytes_cost; lia).
      apply (passes_open bf _ cs (fun vt len s =>
        s0 <- ver_field bf (ver_off bf (ver_vector bf (ver_text bf))) vt len (length bf - cs) 0 s;
        ver_field bf (ver_off bf (ver_bytes bf)) vt len (length bf - cs) 1 s0) _ _ TB D4); [lia|unfold bytes_cost; lia|].
      intros vt len V GT D R. apply passes_seq; try (unfold bytes_cost; lia).
      + apply (passes_pointer bf _ cs vt len TB V GT D R _ nv _ _ 0 eq_refl D4); [apply A4; exact FI|lia|lia].
      + apply (passes_pointer bf _ cs vt len TB V GT D R _ kv _ _ 1 eq_refl D4); [apply A5; exact FI|lia|unfold bytes_cost; lia]. }
  assert (G36 : grows b2 b6).
  { eapply grows_trans; [exact G3|]. eapply grows_trans; [exact G4|]. eapply grows_trans; [exact G5|exact G6]. }
  apply (wrote_grows _ _ _ _ _ _ _ _ _ cid_shift G36 (proj2 S2) (proj2 S6)) in W2.
  assert (OK : table_ok [(1, FOff cs); (0, FOff cid)] (used b6)) by (apply two_ok; [exact I|exact I|lia|lia|lia|exact (proj1 W6)|exact (proj1 W2)]).
  destruct (table_wrote _ _ _ _ E S6 OK SM) as (G & S' & U & T & FB).
  split; [eapply grows_trans; [exact G1|]; eapply grows_trans; [exact G2|]; eapply grows_trans; [exact G36|exact G]|]. split; [exact S'|].
  apply (wrote_grows _ _ _ _ _ _ _ _ _ cid_shift G (proj2 S6) (proj2 S')) in W2.
  apply (wrote_grows _ _ _ _ _ _ _ _ _ cstates_shift G (proj2 S6) (proj2 S')) in W6.
  destruct W2 as (U2 & H2 & A2). destruct W6 as (U6' & H6 & A6). split; [exact U|]. split.
  - split; [exact U|]. unfold read_contract.
    rewrite (read_pointer _ _ _ _ _ 0 _ _ T eq_refl H2), (read_pointer _ _ _ _ _ 1 _ _ T eq_refl H6). reflexivity.
  - intros bf FI. destruct (FB bf FI) as (TB & D4 & DS). unfold contract_cost.
    replace 3%Z with (1 + (1 + 1))%Z by lia.
    assert (CC : (0 <= cid_cost name)%Z) by (unfold cid_cost; specialize (TC name); lia).
    assert (SC : (0 <= cstates_cost names (length ks))%Z) by (unfold cstates_cost; lia).
    rewrite <- Z.add_assoc.
    apply (passes_open bf _ t (fun vt len s =>
      s0 <- ver_field bf (ver_off bf (ver_cid bf)) vt len (length bf - t) 0 s;
      ver_field bf (ver_off bf (ver_cstates bf)) vt len (length bf - t) 1 s0) _ _ TB D4); [lia|lia|].
    intros vt len V GT D R. apply passes_seq; try lia.
    + apply (passes_pointer bf _ t vt len TB V GT D R _ cid _ _ 0 eq_refl D4); [apply A2; exact FI|lia|lia].
    + apply (passes_pointer bf _ t vt len TB V GT D R _ cs _ _ 1 eq_refl D4); [apply A6; exact FI|lia|lia].
Qed.

(** ** The whole *)
Definition contract_cost_of (c : fb_contract) : Z :=
  match c with
  | mkFbContract (Some (mkFbCid (Some name) _)) (Some (mkFbCstates (Some names) (Some ks))) => contract_cost name names (length ks)
  | _ => 0
  end%Z.
Lemma contract_cost_nonneg : forall c, (0 <= contract_cost_of c)%Z.
Proof.
  intros [[[[name|] v]|] [[[names|] [ks|]]|]]; cbn [contract_cost_of]; try lia.
  assert (TC : forall s, (0 <= text_cost s)%Z) by (intros s; unfold text_cost; lia).
  pose proof (costs_nonneg _ text_cost names TC). specialize (TC name). unfold contract_cost, cid_cost, cstates_cost. lia.
Qed.
(** An upper bound of the bytes the check looks at. *)
Definition weight (f : fb_baseline) : Z :=
  (4 + 26 + (10 + costs contract_cost_of (some_list (fb_contracts f))) + (10 + costs state_cost (some_list (fb_states f)))
     + (10 + costs object_cost (some_list (fb_objects f))))%Z.

Lemma finish_layout : forall r b, r <= used b -> sound b -> 4 <= ma b ->
  (Z.of_nat (length (finish r b)) < 2 ^ 31)%Z ->
  final b (finish r b) /\ follow (finish r b) 0 = Some (length (finish r b) - r) /\ 4 <= length (finish r b).
Proof.
  intros r b R SB M4 SM. unfold finish in *.
  set (b1 := align 8 (ma b) b) in *. set (b2 := prepend prefix b1) in *.
  assert (NM : ma b <> 0) by lia.
  pose proof (align_mod 8 (ma b) b NM) as AM. fold b1 in AM.
  assert (D4 : Nat.divide 4 (ma b)) by (apply pw_divide; [unfold pw; lia|exact (proj2 SB)|exact M4]).
  assert (AD : Nat.divide (ma b) (used b1 + 8)) by (apply Nat.mod_divide; [exact NM|exact AM]).
  assert (A4 : (used b1 + 8) mod 4 = 0) by (apply Nat.mod_divide; [lia|]; eapply Nat.divide_trans; eassumption).
  assert (U2 : used b2 = 4 + used b1) by (unfold b2, used, prepend; cbn [bu]; rewrite app_length; reflexivity).
  assert (M2 : used b2 mod 4 = 0).
  { rewrite U2. replace (used b1 + 8) with ((4 + used b1) + 1 * 4) in A4 by lia. rewrite Nat.mod_add in A4 by lia. exact A4. }
  destruct (push_aligned r b2 M2) as [B U].
  assert (LB : length (bu (push (FOff r) b2)) = used b1 + 8) by (fold (used (push (FOff r) b2)); rewrite U, U2; lia).
  assert (MB : more b b2) by (eapply more_trans; [apply (align_more 8 (ma b))|apply prepend_more]).
  pose proof (more_used _ _ MB) as MU.
  split.
  - split; [|rewrite LB; exact AD]. destruct MB as [p MB]. rewrite B, MB. eexists. rewrite app_assoc. reflexivity.
  - split; [|rewrite LB; lia].
    assert (RB : r <= used b2) by lia.
    assert (PA := push_at (FOff r) b2 SM RB). cbn [field_at] in PA. destruct PA as [_ PA].
    fold (used (push (FOff r) b2)) in PA |- *. rewrite Nat.sub_diag in PA. exact PA.
Qed.

Lemma finish_identifier : forall r b, sound b -> 4 <= ma b -> firstn 4 (skipn 4 (finish r b)) = prefix.
Proof.
  intros r b SB M4. unfold finish. set (b1 := align 8 (ma b) b). set (b2 := prepend prefix b1).
  assert (NM : ma b <> 0) by lia.
  pose proof (align_mod 8 (ma b) b NM) as AM. fold b1 in AM.
  assert (D4 : Nat.divide 4 (ma b)) by (apply pw_divide; [unfold pw; lia|exact (proj2 SB)|exact M4]).
  assert (AD : Nat.divide (ma b) (used b1 + 8)) by (apply Nat.mod_divide; [exact NM|exact AM]).
  assert (A4 : (used b1 + 8) mod 4 = 0) by (apply Nat.mod_divide; [lia|]; eapply Nat.divide_trans; eassumption).
  assert (U2 : used b2 = 4 + used b1) by (unfold b2, used, prepend; cbn [bu]; rewrite app_length; reflexivity).
  assert (M2 : used b2 mod 4 = 0).
  { rewrite U2. replace (used b1 + 8) with ((4 + used b1) + 1 * 4) in A4 by lia. rewrite Nat.mod_add in A4 by lia. exact A4. }
  destruct (push_aligned r b2 M2) as [B U]. rewrite B. rewrite skipn_put. reflexivity.
Qed.

Lemma w_finish_spec : forall cs ss os fc fs fo b bytes, w_finish cs ss os b = bytes -> sound b ->
  (Z.of_nat (length bytes) < 2 ^ 31)%Z ->
  Forall2 (fun o c => wrote read_contract ver_contract b o c (tables_contract c) (contract_cost_of c)) cs fc ->
  Forall2 (fun o v => wrote read_state ver_state b o v (tables_state v) (state_cost v)) ss fs ->
  Forall2 (fun o x => wrote read_object ver_object b o x (tables_object x) (object_cost x)) os fo ->
  firstn 4 (skipn 4 bytes) = prefix /\ read_root bytes = Some (mkFb (Some fc) (Some fs) (Some fo)) /\
  ((tables (mkFb (Some fc) (Some fs) (Some fo)) <= max_tables)%Z -> (weight (mkFb (Some fc) (Some fs) (Some fo)) <= max_size)%Z ->
   exists s, verify bytes = Some s).
Proof.
  intros cs ss os fc fs fo b bytes E SB SM WC WS WO. unfold w_finish in E.
  destruct (create_vector cs b) as [c b1] eqn:E1. destruct (create_vector ss b1) as [s b2] eqn:E2.
  destruct (create_vector os b2) as [o b3] eqn:E3. destruct (create_table [(2, FOff o); (1, FOff s); (0, FOff c)] b3) as [r b4] eqn:E4.
  assert (SMF : small (mkBuild bytes [] 1)) by exact SM.
  assert (SM4 : small b4).
  { eapply (more_small b4 (mkBuild bytes [] 1)); [|exact SMF]. rewrite <- E. unfold finish. 
    assert (M : more b4 (push (FOff r) (prepend prefix (align 8 (ma b4) b4))))
      by (eapply more_trans; [apply align_more|eapply more_trans; [apply prepend_more|apply push_more]]).
    destruct M as [p M]. exists p. exact M. }
  assert (SM3 : small b3) by (eapply more_small; [eapply create_table_more; exact E4|exact SM4]).
  assert (SM2 : small b2) by (eapply more_small; [eapply create_vector_more; exact E3|exact SM3]).
  assert (SM1 : small b1) by (eapply more_small; [eapply create_vector_more; exact E2|exact SM2]).
  assert (NC : forall x, (0 <= tables_contract x)%Z) by (intros x; unfold tables_contract, one; destruct (fc_id x), (fc_states x); lia).
  assert (NS : forall x, (0 <= tables_state x)%Z) by (intros x; unfold tables_state; destruct x; lia).
  assert (NO : forall x, (0 <= tables_object x)%Z) by (intros x; unfold tables_object, one; destruct (fo_contract x); lia).
  assert (CS : forall x, (0 <= state_cost x)%Z) by (intros x; unfold state_cost; pose proof (value_cost_nonneg x); lia).
  assert (CO : forall x, (0 <= object_cost x)%Z).
  { intros x. unfold object_cost. pose proof (costs_nonneg _ (fun _ : N => num_cost) (some_list (fo_states x))) as K. unfold num_cost in *. specialize (K ltac:(lia)). lia. }
  destruct (create_vector_spec _ read_contract ver_contract tables_contract contract_cost_of _ _ _ _ _ E1 SB SM1 contract_shift NC contract_cost_nonneg WC) as (G1 & S1 & W1).
  assert (WS1 : Forall2 (fun o v => wrote read_state ver_state b1 o v (tables_state v) (state_cost v)) ss fs).
  { clear - WS G1 SB S1. induction WS as [|x y l l' X _ IH]; constructor; [|exact IH].
    eapply wrote_grows; [apply state_shift|exact G1|exact (proj2 SB)|exact (proj2 S1)|exact X]. }
  destruct (create_vector_spec _ read_state ver_state tables_state state_cost _ _ _ _ _ E2 S1 SM2 state_shift NS CS WS1) as (G2 & S2 & W2).
  assert (WO2 : Forall2 (fun o x => wrote read_object ver_object b2 o x (tables_object x) (object_cost x)) os fo).
  { clear - WO G1 G2 SB S2. induction WO as [|x y l l' X _ IH]; constructor; [|exact IH].
    eapply wrote_grows; [apply object_shift|eapply grows_trans; [exact G1|exact G2]|exact (proj2 SB)|exact (proj2 S2)|exact X]. }
  destruct (create_vector_spec _ read_object ver_object tables_object object_cost _ _ _ _ _ E3 S2 SM3 object_shift NO CO WO2) as (G3 & S3 & W3).
  apply (wrote_grows _ _ _ _ _ _ _ _ _ (vector_shift _ _ contract_shift) (grows_trans _ _ _ G2 G3) (proj2 S1) (proj2 S3)) in W1.
  apply (wrote_grows _ _ _ _ _ _ _ _ _ (vector_shift _ _ state_shift) G3 (proj2 S2) (proj2 S3)) in W2.
  assert (OK : table_ok [(2, FOff o); (1, FOff s); (0, FOff c)] (used b3)).
  { unfold table_ok, targets. cbn [map fst].
    split; [repeat (constructor; [cbn [In]; lia|]); constructor|]. split; [intros i; cbn [In]; lia|].
    split; [repeat (constructor; [exact I|]); constructor|].
    intros i x [H|[H|[H|[]]]]; [assert (x = o) by congruence|assert (x = s) by congruence|assert (x = c) by congruence]; subst x;
      [exact (proj1 W3)|exact (proj1 W2)|exact (proj1 W1)]. }
  destruct (table_wrote _ _ _ _ E4 S3 OK SM4) as (G4 & S4 & U4 & T4 & FB).
  assert (M4 : 4 <= ma b4) by (eapply create_table_ma; [exact E4|exact (proj1 (proj2 (proj2 OK)))|exact (proj2 S3)]).
  rewrite <- E in SM.
  destruct (finish_layout r b4 U4 S4 M4 SM) as (FI & FO & L4). rewrite E in FI, FO, L4.
  destruct (FB bytes FI) as (TB & D4 & _).
  assert (FI3 : final b3 bytes) by (eapply final_grows; [exact G4|exact (proj2 S3)|exact (proj2 S4)|exact FI]).
  destruct W1 as (_ & H1 & A1). destruct W2 as (_ & H2 & A2). destruct W3 as (_ & H3 & A3).
  split; [rewrite <- E; apply finish_identifier; assumption|].
  split.
  - unfold read_root. rewrite FO. destruct FI3 as [[p FP] _]. rewrite FP in TB |- *. unfold read_baseline.
    rewrite (read_pointer _ _ _ _ _ 0 _ _ TB eq_refl (holds_more _ _ p _ _ _ (vector_shift _ _ contract_shift) H1)).
    rewrite (read_pointer _ _ _ _ _ 1 _ _ TB eq_refl (holds_more _ _ p _ _ _ (vector_shift _ _ state_shift) H2)).
    rewrite (read_pointer _ _ _ _ _ 2 _ _ TB eq_refl (holds_more _ _ p _ _ _ (vector_shift _ _ object_shift) H3)). reflexivity.
  - intros LT LW. unfold weight, tables in *. cbn [fb_contracts fb_states fb_objects some_list] in *.
    pose proof (costs_nonneg _ _ fc contract_cost_nonneg) as K1. pose proof (costs_nonneg _ _ fs CS) as K2. pose proof (costs_nonneg _ _ fo CO) as K3.
    assert (CT : forall A (f : A -> Z) l, counts f l = sum (map f l)) by (intros A f l; unfold sum; induction l as [|y l IHl]; cbn [counts map fold_right]; [reflexivity|rewrite IHl; reflexivity]).
    rewrite <- !CT in LT.
    pose proof (counts_nonneg _ _ fc NC) as N1. pose proof (counts_nonneg _ _ fs NS) as N2. pose proof (counts_nonneg _ _ fo NO) as N3.
    assert (P : passes (ver_off bytes (ver_baseline bytes) 0)
                  (1 + (counts tables_contract fc + (counts tables_state fs + counts tables_object fo)))
                  (4 + (26 + ((6 + (4 + costs contract_cost_of fc)) + ((6 + (4 + costs state_cost fs)) + (6 + (4 + costs object_cost fo))))))).
    { eapply passes_off; [reflexivity|exact L4|exact FO| |lia|lia].
      apply (passes_open bytes _ r (fun vt len s0 =>
        s1 <- ver_field bytes (ver_off bytes (ver_vector bytes (ver_contract bytes))) vt len (length bytes - r) 0 s0;
        s2 <- ver_field bytes (ver_off bytes (ver_vector bytes (ver_state bytes))) vt len (length bytes - r) 1 s1;
        ver_field bytes (ver_off bytes (ver_vector bytes (ver_object bytes))) vt len (length bytes - r) 2 s2) _ _ TB D4); [lia|lia|].
      intros vt len V GT D R. apply passes_seq; try lia;
        [apply (passes_pointer bytes _ r vt len TB V GT D R _ c _ _ 0 eq_refl D4); [apply A1; exact FI3|lia|lia]|].
      apply passes_seq; try lia;
        [apply (passes_pointer bytes _ r vt len TB V GT D R _ s _ _ 1 eq_refl D4); [apply A2; exact FI3|lia|lia]|].
      apply (passes_pointer bytes _ r vt len TB V GT D R _ o _ _ 2 eq_refl D4); [apply A3; exact FI3|lia|lia]. }
    destruct (P (0%Z, 0%Z)) as (st & V & _); [cbn [fst]; lia|cbn [snd]; lia|]. exists st. exact V.
Qed.
