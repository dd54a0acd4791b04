(** Exact integer-to-float conversion and division by 1024. *)
From Verif Require Import TimeFloat TimeFloatSpec TweenProofs.
Open Scope Z_scope.

Lemma digits_unique p n : 2 ^ (n - 1) <= Zpos p < 2 ^ n -> 1 <= n -> Zpos (digits2_pos p) = n.
Proof.
  intros [A B] N. pose proof (digits_bounds p) as [C D]. apply Z.le_antisymm.
  - apply digits_le; lia.
  - apply Z.nlt_ge. intros L. assert (2 ^ Z.pos (digits2_pos p) <= 2 ^ (n - 1)) by (apply Z.pow_le_mono_r; lia). lia.
Qed.

(** The location computed by the shifts. *)
Definition loc_inv (m k : Z) (x : shr_record) : Prop :=
  shr_m x = m / 2 ^ k /\ (shr_r x = true <-> 2 ^ k <= 2 * (m mod 2 ^ k)) /\
  (shr_s x = true <-> (2 * (m mod 2 ^ k)) <> 0 /\ (2 * (m mod 2 ^ k)) <> 2 ^ k).
Lemma shr_1_loc m k x : 0 <= m -> 0 <= k -> loc_inv m k x -> loc_inv m (k + 1) (shr_1 x).
Proof.
  intros Hm Hk (Em & Er & Es). destruct x as [q r s]. cbn [shr_m shr_r shr_s] in *.
  pose proof (pow2_pos k Hk) as Hp. assert (Hq : 0 <= q) by (subst q; apply Z.div_pos; lia).
  assert (P : 2 ^ (k + 1) = 2 ^ k * 2) by (rewrite Z.pow_add_r, Z.pow_1_r by lia; reflexivity).
  assert (Ed : m / (2 ^ k * 2) = q / 2) by (rewrite <- Z.div_div by lia; congruence).
  assert (Emo : m mod (2 ^ k * 2) = m mod 2 ^ k + 2 ^ k * (q mod 2)) by (rewrite Z.rem_mul_r by lia; congruence).
  pose proof (Z.mod_pos_bound m (2 ^ k) Hp) as Hb. unfold loc_inv. rewrite P, Ed, Emo.
  set (R := m mod 2 ^ k) in *. clearbody R.
  assert (O : r || s = true <-> R <> 0).
  { destruct r, s; cbn; intuition (try lia; try congruence). }
  assert (K : forall q2 b, q mod 2 = b -> b = 0 \/ b = 1 -> q / 2 = q2 -> forall r', (r' = true <-> b = 1) ->
     q2 = q / 2 /\ (r' = true <-> 2 ^ k * 2 <= 2 * (R + 2 ^ k * b)) /\
     (r || s = true <-> 2 * (R + 2 ^ k * b) <> 0 /\ 2 * (R + 2 ^ k * b) <> 2 ^ k * 2)).
  { intros q2 b Eb Hb1 E2 r' Hr'. split; [congruence|]. split; [|rewrite O]; destruct Hb1 as [-> | ->]; try rewrite Hr'; lia. }
  destruct q as [|[p|p|]|p]; [..|lia]; cbn [shr_1 shr_m shr_r shr_s].
  - apply (K 0 0); auto. intuition (try lia; try congruence).
  - replace (Zpos p~1) with (1 + Zpos p * 2) in * by lia.
    assert (E1 : (1 + Z.pos p * 2) mod 2 = 1) by (rewrite Z.mod_add by lia; reflexivity).
    assert (E2 : (1 + Z.pos p * 2) / 2 = Zpos p) by (rewrite Z.div_add by lia; reflexivity).
    rewrite E1. apply (K (Zpos p) 1); auto. intuition.
  - replace (Zpos p~0) with (0 + Zpos p * 2) in * by lia.
    assert (E1 : (0 + Z.pos p * 2) mod 2 = 0) by (rewrite Z.mod_add by lia; reflexivity).
    assert (E2 : (0 + Z.pos p * 2) / 2 = Zpos p) by (rewrite Z.div_add by lia; reflexivity).
    rewrite E1. apply (K (Zpos p) 0); auto. intuition (try lia; try congruence).
  - change (1 mod 2) with 1 in *. apply (K 0 1); auto. intuition.
Qed.
Lemma shr_iter_loc m p : 0 <= m -> loc_inv m (Zpos p) (iter_pos shr_1 p {| shr_m := m; shr_r := false; shr_s := false |}).
Proof.
  intros Hm. assert (B : loc_inv m 0 {| shr_m := m; shr_r := false; shr_s := false |}).
  { unfold loc_inv. cbn [shr_m shr_r shr_s]. rewrite Z.pow_0_r, Z.div_1_r, Z.mod_1_r. split; [reflexivity|].
    split; split; intros H; try congruence; try lia. }
  rewrite iter_pos_iter. induction p as [|p IH] using Pos.peano_ind.
  - cbn [Pos.iter]. change 1 with (0 + 1). apply shr_1_loc; auto; lia.
  - rewrite Pos.iter_succ, Pos2Z.inj_succ. unfold Z.succ. apply shr_1_loc; auto; lia.
Qed.

(** Round to nearest, ties to even, of [m / 2^k]. *)
Definition rne (m k : Z) : Z :=
  let q := m / 2 ^ k in let r := m mod 2 ^ k in
  match 2 * r ?= 2 ^ k with Lt => q | Gt => q + 1 | Eq => if Z.even q then q else q + 1 end.
Lemma rne_of_shr m k x : 0 <= m -> 0 < k -> loc_inv m k x -> round_nearest_even (shr_m x) (loc_of_shr_record x) = rne m k.
Proof.
  intros Hm Hk (Em & Er & Es). unfold rne. destruct x as [q r s]. cbn [shr_m shr_r shr_s] in *. rewrite <- Em.
  pose proof (pow2_pos k ltac:(lia)) as Hp. pose proof (Z.mod_pos_bound m (2 ^ k) Hp) as Hb. set (R := m mod 2 ^ k) in *. clearbody R.
  destruct (Z.compare_spec (2 * R) (2 ^ k)); destruct r, s; cbn [loc_of_shr_record round_nearest_even]; auto; exfalso; intuition (try lia; try congruence).
Qed.
Lemma rne_range m k d : 0 < k -> 0 <= d -> 2 ^ (d + k) <= m < 2 ^ (d + 1 + k) -> 2 ^ d <= rne m k <= 2 ^ (d + 1).
Proof.
  intros Hk Hd [A B]. pose proof (pow2_pos k ltac:(lia)) as Hp.
  rewrite Z.pow_add_r in A by lia. rewrite Z.pow_add_r in B by lia.
  assert (2 ^ d <= m / 2 ^ k) by (apply Z.div_le_lower_bound; lia).
  assert (m / 2 ^ k < 2 ^ (d + 1)) by (apply Z.div_lt_upper_bound; lia).
  unfold rne. destruct (_ ?= _); try destruct (Z.even _); lia.
Qed.

Section Prec.
Variables prec emax : Z.
Hypothesis Hprec : 2 <= prec.
Hypothesis Hemax : prec + 20 <= emax.

(** A mantissa of full length is not shifted. *)
Lemma shr_fexp_full m e : Zpos (digits2_pos m) = prec -> emin prec emax <= e ->
  shr_fexp prec emax (Zpos m) e loc_Exact = ({| shr_m := Zpos m; shr_r := false; shr_s := false |}, e).
Proof.
  intros D E. unfold shr_fexp. cbn [shr_record_of_loc Zdigits2]. rewrite D. unfold fexp.
  replace (Z.max (prec + e - prec) (emin prec emax) - e) with 0 by lia. reflexivity.
Qed.
Lemma norm_full q e : 2 ^ (prec - 1) <= q <= 2 ^ prec -> emin prec emax <= e ->
  exists m e2, shr_fexp prec emax q e loc_Exact = ({| shr_m := Zpos m; shr_r := false; shr_s := false |}, e2) /\
    Zpos (digits2_pos m) = prec /\ e <= e2 <= e + 1 /\ Zpos m * 2 ^ (e2 - e) = q.
Proof.
  intros [A B] E. assert (0 < 2 ^ (prec - 1)) by (apply pow2_pos; lia). destruct q as [|p|p]; [lia| |lia].
  destruct (Z.eq_dec (Zpos p) (2 ^ prec)) as [Eq|Ne].
  - assert (D : Zpos (digits2_pos p) = prec + 1).
    { apply digits_unique; [|lia]. rewrite Eq. replace (prec + 1 - 1) with prec by lia. split; [lia|]. apply Z.pow_lt_mono_r; lia. }
    unfold shr_fexp. cbn [shr_record_of_loc Zdigits2]. rewrite D. unfold fexp.
    replace (Z.max (prec + 1 + e - prec) (emin prec emax) - e) with 1 by lia. cbn [shr].
    pose proof (shr_iter_loc (Zpos p) 1 ltac:(lia)) as (L1 & L2 & L3). cbn [iter_pos] in *. set (x := shr_1 _) in *.
    assert (P2 : 2 ^ prec = 2 ^ (prec - 1) * 2) by (replace prec with (prec - 1 + 1) at 1 by lia; rewrite Z.pow_add_r by lia; reflexivity).
    change (2 ^ 1) with 2 in *.
    assert (M0 : Z.pos p mod 2 = 0) by (rewrite Eq, P2; apply Z.mod_mul; lia).
    assert (D0 : Z.pos p / 2 = 2 ^ (prec - 1)) by (rewrite Eq, P2; apply Z.div_mul; lia).
    rewrite M0 in L2, L3. rewrite D0 in L1.
    destruct x as [xm xr xs]. cbn in L1, L2, L3. destruct xr; [exfalso; lia|]. destruct xs; [exfalso; lia|].
    destruct (2 ^ (prec - 1)) as [|m|] eqn:Em; [lia| |lia]. subst xm. exists m, (e + 1). split; [reflexivity|]. split.
    + apply digits_unique; [|lia]. rewrite <- Em. split; [lia|]. apply Z.pow_lt_mono_r; lia.
    + split; [lia|]. replace (e + 1 - e) with 1 by lia. lia.
  - assert (D : Zpos (digits2_pos p) = prec) by (apply digits_unique; lia).
    exists p, e. split; [apply shr_fexp_full; auto|]. split; [auto|]. split; [lia|]. rewrite Z.sub_diag, Z.pow_0_r. lia.
Qed.

(** What an integer becomes. *)
Definition rounded (a : Z) : Z := if a <? 2 ^ prec then a else let k := Z.log2 a + 1 - prec in rne a k * 2 ^ k.
Lemma digits_log p : Zpos (digits2_pos p) = Z.log2 (Zpos p) + 1.
Proof.
  pose proof (digits_bounds p). assert (Z.log2 (Zpos p) = Zpos (digits2_pos p) - 1); [|lia].
  apply Z.log2_unique; [lia|]. replace (Z.succ (Z.pos (digits2_pos p) - 1)) with (Z.pos (digits2_pos p)) by lia. lia.
Qed.
Lemma round_int s p : Zpos p < 2 ^ (prec + 16) ->
  exists m e, binary_round prec emax s p 0 = S754_finite s m e /\ Zpos (digits2_pos m) = prec /\
    1 - prec <= e <= 17 /\ Zpos m * 2 ^ (e + prec) = rounded (Zpos p) * 2 ^ prec.
Proof.
  intros Hp. unfold binary_round, shl_align. rewrite Z.add_0_r, Z.sub_0_r.
  pose proof (digits_bounds p) as Hd. set (d := Zpos (digits2_pos p)) in *. assert (Hd1 : 1 <= d) by (unfold d; lia).
  assert (Hd2 : d <= prec + 16) by (apply digits_le; lia).
  assert (Emin : emin prec emax <= -prec - 17) by (unfold emin; lia).
  unfold fexp. replace (Z.max (d - prec) (emin prec emax)) with (d - prec) by lia.
  destruct (Z.lt_trichotomy d prec) as [L|[L|L]].
  - destruct (d - prec) as [|k|k] eqn:Ek; [lia|lia|].
    assert (Dm : Zpos (digits2_pos (shift_pos k p)) = prec).
    { apply digits_unique; [|lia]. rewrite shift_pos_mul. pose proof (pow2_pos (Zpos k) ltac:(lia)).
      replace (prec - 1) with ((d - 1) + Zpos k) by lia. replace prec with (d + Zpos k) by lia. rewrite !Z.pow_add_r by lia. clear - Hd H. set (x := 2 ^ Zpos k) in *. clearbody x. split; [apply Z.mul_le_mono_nonneg_r|apply Z.mul_lt_mono_pos_r]; lia. }
    unfold binary_round_aux. rewrite shr_fexp_full by (auto; lia). cbn [shr_m loc_of_shr_record round_nearest_even].
    rewrite shr_fexp_full by (auto; lia). cbn [shr_m].
    assert (Hz : Zle_bool (Zneg k) (emax - prec) = true) by (apply Zle_imp_le_bool; lia). rewrite Hz.
    exists (shift_pos k p), (Zneg k). split; [reflexivity|]. split; [exact Dm|]. split; [lia|].
    unfold rounded. assert (Hlt : Zpos p < 2 ^ prec) by (assert (2 ^ d <= 2 ^ prec) by (apply Z.pow_le_mono_r; lia); lia).
    replace (Zpos p <? 2 ^ prec) with true by (symmetry; apply Z.ltb_lt; lia).
    rewrite shift_pos_mul, <- Z.mul_assoc, <- Z.pow_add_r by lia. f_equal. f_equal. lia.
  - replace (d - prec) with 0 by lia. unfold binary_round_aux. fold d. 
    rewrite shr_fexp_full by (auto; lia). cbn [shr_m loc_of_shr_record round_nearest_even].
    rewrite shr_fexp_full by (auto; lia). cbn [shr_m].
    assert (Hz : Zle_bool 0 (emax - prec) = true) by (apply Zle_imp_le_bool; lia). rewrite Hz.
    exists p, 0. split; [reflexivity|]. split; [exact L|]. split; [lia|].
    unfold rounded. rewrite L in Hd. replace (Zpos p <? 2 ^ prec) with true by (symmetry; apply Z.ltb_lt; lia). reflexivity.
  - destruct (d - prec) as [|k|k] eqn:Ek; [lia| |lia].
    assert (S1 : shr_fexp prec emax (Zpos p) 0 loc_Exact = (iter_pos shr_1 k {| shr_m := Zpos p; shr_r := false; shr_s := false |}, Zpos k)).
    { unfold shr_fexp. cbn [shr_record_of_loc Zdigits2]. fold d. unfold fexp.
      replace (Z.max (d + 0 - prec) (emin prec emax) - 0) with (Zpos k) by lia. reflexivity. }
    unfold binary_round_aux. rewrite S1. rewrite (rne_of_shr (Zpos p) (Zpos k)) by (try lia; apply shr_iter_loc; lia).
    assert (R : 2 ^ (prec - 1) <= rne (Zpos p) (Zpos k) <= 2 ^ prec).
    { replace prec with (prec - 1 + 1) at 2 by lia. apply rne_range; try lia.
      replace (prec - 1 + Zpos k) with (d - 1) by lia. replace (prec - 1 + 1 + Zpos k) with d by lia. lia. }
    destruct (norm_full _ (Zpos k) R ltac:(lia)) as (m & e2 & -> & Dm & He & Hv). cbn [shr_m].
    assert (Hz : Zle_bool e2 (emax - prec) = true) by (apply Zle_imp_le_bool; lia). rewrite Hz.
    exists m, e2. split; [reflexivity|]. split; [exact Dm|]. split; [lia|].
    unfold rounded. assert (Hge : 2 ^ prec <= Zpos p) by (assert (2 ^ prec <= 2 ^ (d - 1)) by (apply Z.pow_le_mono_r; lia); lia).
    replace (Zpos p <? 2 ^ prec) with false by (symmetry; apply Z.ltb_ge; lia).
    rewrite <- digits_log. fold d. rewrite Ek. rewrite <- Hv, <- !Z.mul_assoc, <- !Z.pow_add_r by lia. f_equal. f_equal. lia.
Qed.

(** Dividing a full-length float by 1024 lowers its exponent. *)
Lemma div_1024 s m e m2 : Zpos (digits2_pos m) = prec -> 1 - prec <= e <= 17 -> Zpos m2 = 2 ^ (prec - 1) ->
  SFdiv prec emax (S754_finite s m e) (S754_finite false m2 (11 - prec)) = S754_finite s m (e - 10).
Proof.
  intros D E M. cbn [SFdiv]. unfold SFdiv_core_binary. cbn [Zdigits2]. rewrite D.
  assert (D2 : Zpos (digits2_pos m2) = prec).
  { apply digits_unique; [|lia]. rewrite M. split; [lia|]. apply Z.pow_lt_mono_r; lia. }
  rewrite D2. assert (Emin : emin prec emax <= -prec - 17) by (unfold emin; lia).
  unfold fexp at 1 2 3. replace (Z.min (Z.max (prec + e - (prec + (11 - prec)) - prec) (emin prec emax)) (e - (11 - prec))) with (e - 11) by lia.
  replace (e - (11 - prec) - (e - 11)) with prec by lia.
  destruct prec as [|pp|] eqn:Ep; [lia| |lia]. rewrite Z.shiftl_mul_pow2 by lia. rewrite M.
  assert (X : Z.pos m * 2 ^ Zpos pp = (2 * Zpos m) * 2 ^ (Zpos pp - 1)).
  { replace (Zpos pp) with (Zpos pp - 1 + 1) at 1 by lia. rewrite Z.pow_add_r by lia. lia. }
  rewrite X. assert (Pp : 0 < 2 ^ (Zpos pp - 1)) by (apply pow2_pos; lia).
  pose proof (Z.div_mul (2 * Zpos m) (2 ^ (Zpos pp - 1)) ltac:(lia)) as Hq. pose proof (Z.mod_mul (2 * Zpos m) (2 ^ (Zpos pp - 1)) ltac:(lia)) as Hr.
  unfold Z.div in Hq. unfold Z.modulo in Hr. destruct (Z.div_eucl _ _) as [q r]. subst q r.
  replace (new_location (2 ^ (Z.pos pp - 1)) 0) with loc_Exact by (unfold new_location; destruct (Z.even _); reflexivity).
  rewrite Bool.xorb_false_r. rewrite <- Ep in *. clear pp Ep X.
  assert (D3 : Zpos (digits2_pos m~0) = prec + 1) by (cbn [digits2_pos]; lia).
  unfold binary_round_aux. change (2 * Zpos m) with (Zpos m~0).
  assert (S1 : shr_fexp prec emax (Zpos m~0) (e - 11) loc_Exact = ({| shr_m := Zpos m; shr_r := false; shr_s := false |}, e - 10)).
  { unfold shr_fexp. cbn [shr_record_of_loc Zdigits2]. rewrite D3. unfold fexp.
    replace (Z.max (prec + 1 + (e - 11) - prec) (emin prec emax) - (e - 11)) with 1 by lia. cbn [shr iter_pos shr_1 orb]. f_equal. lia. }
  rewrite S1. cbn [shr_m loc_of_shr_record round_nearest_even]. rewrite shr_fexp_full by (auto; lia). cbn [shr_m].
  assert (Hz : Zle_bool (e - 10) (emax - prec) = true) by (apply Zle_imp_le_bool; lia). rewrite Hz. reflexivity.
Qed.
End Prec.

(** ** Nearest representable integers *)

Lemma short_opp p r : short p r -> short p (- r).
Proof. intros (m & k & A & B & ->). exists (- m), k. split; [auto|]. split; [lia|]. ring. Qed.
Lemma nearest_opp p n r : nearest p n r -> nearest p (- n) (- r).
Proof.
  intros [S N]. split; [apply short_opp; auto|]. intros r' S'. destruct (N (- r') (short_opp _ _ S')) as [A B]. split.
  - replace (- n - - r) with (- (n - r)) by lia. replace (- n - r') with (- (n - - r')) by lia. rewrite !Z.abs_opp. exact A.
  - intros Ne E. apply short_opp. apply B; [lia|]. replace (- n - - r) with (- (n - r)) in E by lia.
    replace (- n - r') with (- (n - - r')) in E by lia. rewrite !Z.abs_opp in E. exact E.
Qed.
Lemma rounded_nearest p a : 2 <= p -> 0 <= a -> nearest p a (rounded p a).
Proof.
  intros Hp Ha. unfold rounded. destruct (Z.ltb_spec a (2 ^ p)) as [L|L].
  - split.
    + exists a, 0. split; [lia|]. split; [lia|]. rewrite Z.pow_0_r. ring.
    + intros r' _. split; [lia|]. intros Ne E. lia.
  - cbn zeta. set (k := Z.log2 a + 1 - p).
    assert (H2 : 0 < 2 ^ p) by (apply pow2_pos; lia). pose proof (Z.log2_spec a ltac:(lia)) as Hl.
    assert (Hk : 0 < k). { assert (p <= Z.log2 a); [|unfold k; lia]. rewrite <- (Z.log2_pow2 p) by lia. apply Z.log2_le_mono. lia. }
    assert (Rg : 2 ^ (p - 1 + k) <= a < 2 ^ (p - 1 + 1 + k)).
    { replace (p - 1 + k) with (Z.log2 a) by (unfold k; lia). replace (p - 1 + 1 + k) with (Z.succ (Z.log2 a)) by (unfold k; lia). exact Hl. }
    pose proof (rne_range a k (p - 1) Hk ltac:(lia) Rg) as RR. replace (p - 1 + 1) with p in RR by lia.
    assert (P2 : 2 ^ p = 2 * 2 ^ (p - 1)) by (replace p with (Z.succ (p - 1)) at 1 by lia; apply Z.pow_succ_r; lia).
    clearbody k. clear Hl L.
    assert (Hpk : 0 < 2 ^ k) by (apply pow2_pos; lia).
    set (q := a / 2 ^ k). set (R := a mod 2 ^ k).
    assert (Dm : a = 2 ^ k * q + R) by (apply Z.div_mod; lia). assert (Rb : 0 <= R < 2 ^ k) by (apply Z.mod_pos_bound; lia).
    assert (Q1 : 2 ^ (p - 1) <= q) by (apply Z.div_le_lower_bound; [lia|]; rewrite Z.mul_comm, <- Z.pow_add_r by lia; lia).
    assert (SH : forall x, 2 ^ (p - 1) <= x <= 2 ^ p -> short p (x * 2 ^ k)).
    { intros x Hx. destruct (Z.eq_dec x (2 ^ p)) as [->|Ne].
      - exists 1, (p + k). split; [lia|]. split; [lia|]. rewrite Z.pow_add_r by lia. ring.
      - exists x, k. split; [lia|]. split; [lia|]. reflexivity. }
    assert (SE : forall x, 2 ^ (p - 1) <= x <= 2 ^ p -> Z.even x = true -> short (p - 1) (x * 2 ^ k)).
    { intros x Hx Ev. apply Z.even_spec in Ev. destruct Ev as [y ->]. destruct (Z.eq_dec y (2 ^ (p - 1))) as [->|Ne].
      - exists 1, (p + k). split; [lia|]. split; [apply Z.pow_gt_1; lia|]. rewrite Z.pow_add_r, P2 by lia. ring.
      - exists y, (k + 1). split; [lia|]. split; [lia|]. rewrite Z.pow_add_r by lia. ring. }
    split; [apply SH; exact RR|]. intros r' (m' & k' & K0 & M0 & ->).
    assert (Out : m' * 2 ^ k' <= q * 2 ^ k \/ (q + 1) * 2 ^ k <= m' * 2 ^ k').
    { destruct (Z.le_gt_cases k k') as [Le|Gt].
      - replace k' with (k' - k + k) by lia. rewrite Z.pow_add_r by lia. rewrite Z.mul_assoc. set (y := m' * 2 ^ (k' - k)). 
        destruct (Z.le_gt_cases y q); [left|right]; apply Z.mul_le_mono_nonneg_r; lia.
      - left. assert (X : 2 ^ p * 2 ^ k' <= 2 ^ (p - 1) * 2 ^ k).
        { rewrite <- !Z.pow_add_r by lia. apply Z.pow_le_mono_r; lia. }
        assert (Y : 0 < 2 ^ k') by (apply pow2_pos; lia).
        assert (m' * 2 ^ k' <= 2 ^ p * 2 ^ k') by (apply Z.mul_le_mono_nonneg_r; lia).
        assert (2 ^ (p - 1) * 2 ^ k <= q * 2 ^ k) by (apply Z.mul_le_mono_nonneg_r; lia). lia. }
    set (r' := m' * 2 ^ k') in *. clearbody r'. unfold rne in *. fold q R in RR |- *.
    destruct (Z.compare_spec (2 * R) (2 ^ k)) as [E|E|E].
    + destruct (Z.even q) eqn:Ev.
      * split; [lia|]. intros _ _. apply SE; auto.
      * split; [lia|]. intros _ _. apply SE; auto. rewrite Z.even_add, Ev. reflexivity.
    + split; [lia|]. intros Ne Eq. exfalso. lia.
    + split; [lia|]. intros Ne Eq. exfalso. lia.
Qed.

(** ** The conversions *)
Definition sround (p n : Z) : Z := if n <? 0 then - rounded p (- n) else rounded p n.
Lemma sround_nearest p n : 2 <= p -> nearest p n (sround p n).
Proof.
  intros Hp. unfold sround. destruct (Z.ltb_spec n 0).
  - rewrite <- (Z.opp_involutive n) at 1. apply nearest_opp. apply rounded_nearest; lia.
  - apply rounded_nearest; lia.
Qed.

(** Zero, or finite with a full mantissa. *)
Definition full (p : Z) (x : spec_float) : Prop :=
  match x with S754_zero s => s = false | S754_finite _ m _ => Zpos (digits2_pos m) = p | _ => False end.
Lemma convert prec emax c m2 n :
  2 <= prec -> prec + 20 <= emax -> c = S754_finite false m2 (11 - prec) -> Zpos m2 = 2 ^ (prec - 1) ->
  Z.abs n < 2 ^ (prec + 16) ->
  let x := SFdiv prec emax (binary_normalize prec emax n 0 false) c in
  full prec x /\ value_is x (sround prec n) 10.
Proof.
  intros Hp He -> M B. cbn zeta.
  assert (K : forall s p, Zpos p < 2 ^ (prec + 16) ->
    exists m e, SFdiv prec emax (binary_round prec emax s p 0) (S754_finite false m2 (11 - prec)) = S754_finite s m (e - 10) /\
      Zpos (digits2_pos m) = prec /\ Zpos m * 2 ^ Z.max 0 (e - 10 + 10) = rounded prec (Zpos p) * 2 ^ Z.max 0 (- (e - 10 + 10))).
  { intros s p L. destruct (round_int prec emax Hp He s p L) as (m & e & -> & D & Re & V).
    exists m, e. split; [apply div_1024; auto|]. split; [exact D|].
    replace (e - 10 + 10) with e by lia. destruct (Z.le_gt_cases 0 e) as [G|G].
    - replace (Z.max 0 e) with e by lia. replace (Z.max 0 (- e)) with 0 by lia. rewrite Z.pow_add_r, Z.mul_assoc in V by lia.
      apply Z.mul_reg_r in V; [lia|]. pose proof (pow2_pos prec ltac:(lia)). lia.
    - replace (Z.max 0 e) with 0 by lia. replace (Z.max 0 (- e)) with (- e) by lia.
      assert (X : 2 ^ prec = 2 ^ (- e) * 2 ^ (e + prec)) by (rewrite <- Z.pow_add_r by lia; f_equal; lia). rewrite X, Z.mul_assoc in V.
      apply Z.mul_reg_r in V; [lia|]. pose proof (pow2_pos (e + prec) ltac:(lia)). lia. }
  destruct n as [|p|p]; cbn [binary_normalize].
  - cbn. split; [reflexivity|]. unfold sround, rounded. cbn [Z.ltb Z.compare]. destruct (Z.ltb_spec 0 (2 ^ prec)); [reflexivity|].
    pose proof (pow2_pos prec ltac:(lia)). lia.
  - destruct (K false p ltac:(lia)) as (m & e & -> & D & V). cbn [full value_is]. split; [exact D|]. exact V.
  - destruct (K true p ltac:(lia)) as (m & e & -> & D & V). cbn [full value_is]. split; [exact D|].
    unfold sround. cbn [Z.ltb Z.compare]. change (- Zneg p) with (Zpos p). rewrite !Z.mul_opp_l, V. reflexivity.
Qed.

Lemma pow_cancel m a b : 0 <= a -> 0 <= b -> m * 2 ^ a = 0 * 2 ^ b -> m = 0.
Proof. intros A B E. pose proof (pow2_pos a A). rewrite Z.mul_0_l in E. apply Z.mul_eq_0 in E. lia. Qed.
(** Comparing full floats compares their values. *)
Lemma full_compare p x1 x2 r1 r2 k : full p x1 -> full p x2 -> value_is x1 r1 k -> value_is x2 r2 k ->
  SFcompare x1 x2 = Some (r1 ?= r2).
Proof.
  assert (MM : forall m1 e1 m2 e2 r1 r2, Zpos (digits2_pos m1) = p -> Zpos (digits2_pos m2) = p ->
     Zpos m1 * 2 ^ Z.max 0 (e1 + k) = r1 * 2 ^ Z.max 0 (- (e1 + k)) ->
     Zpos m2 * 2 ^ Z.max 0 (e2 + k) = r2 * 2 ^ Z.max 0 (- (e2 + k)) ->
     match Z.compare e1 e2 with Lt => Lt | Gt => Gt | Eq => Pcompare m1 m2 Eq end = (r1 ?= r2)).
  { assert (LT : forall m1 e1 m2 e2 r1 r2, e1 < e2 -> Zpos (digits2_pos m1) = p -> Zpos (digits2_pos m2) = p ->
     Zpos m1 * 2 ^ Z.max 0 (e1 + k) = r1 * 2 ^ Z.max 0 (- (e1 + k)) ->
     Zpos m2 * 2 ^ Z.max 0 (e2 + k) = r2 * 2 ^ Z.max 0 (- (e2 + k)) -> r1 < r2).
    { intros m1 e1 m2 e2 a b L D1 D2 V1 V2. set (c := Z.max 0 (- (e1 + k))).
      assert (W1 : Zpos m1 * 2 ^ (e1 + k + c) = a * 2 ^ c).
      { unfold c. destruct (Z.le_gt_cases 0 (e1 + k)).
        - replace (Z.max 0 (- (e1 + k))) with 0 in * by lia. replace (Z.max 0 (e1 + k)) with (e1 + k) in V1 by lia. rewrite Z.add_0_r. exact V1.
        - replace (Z.max 0 (e1 + k)) with 0 in V1 by lia. replace (e1 + k + Z.max 0 (- (e1 + k))) with 0 by lia. exact V1. }
      assert (W2 : Zpos m2 * 2 ^ (e2 + k + c) = b * 2 ^ c).
      { set (c2 := Z.max 0 (- (e2 + k))) in *. assert (Hc : c2 <= c) by lia.
        replace (e2 + k + c) with (Z.max 0 (e2 + k) + (c - c2)) by lia. rewrite Z.pow_add_r by lia.
        rewrite Z.mul_assoc, V2, <- Z.mul_assoc, <- Z.pow_add_r by lia. f_equal. f_equal. lia. }
      pose proof (digits_bounds m1) as B1. pose proof (digits_bounds m2) as B2. rewrite D1 in B1. rewrite D2 in B2.
      assert (Pp : 0 <= p - 1) by lia. assert (P2 : 2 ^ p = 2 * 2 ^ (p - 1)) by (replace p with (Z.succ (p - 1)) at 1 by lia; apply Z.pow_succ_r; lia).
      assert (Pe : 2 * 2 ^ (e1 + k + c) <= 2 ^ (e2 + k + c)).
      { rewrite <- Z.pow_succ_r by lia. apply Z.pow_le_mono_r; lia. }
      assert (X : Zpos m1 * 2 ^ (e1 + k + c) < Zpos m2 * 2 ^ (e2 + k + c)).
      { pose proof (pow2_pos (e1 + k + c) ltac:(lia)) as Y. pose proof (pow2_pos (p - 1) Pp) as Y2.
        apply Z.lt_le_trans with (2 ^ p * 2 ^ (e1 + k + c)); [apply Z.mul_lt_mono_pos_r; lia|].
        rewrite P2. apply Z.le_trans with (2 ^ (p - 1) * 2 ^ (e2 + k + c)).
        - rewrite (Z.mul_comm 2), <- Z.mul_assoc. apply Z.mul_le_mono_nonneg_l; lia.
        - apply Z.mul_le_mono_nonneg_r; lia. }
      rewrite W1, W2 in X. apply Z.mul_lt_mono_pos_r in X; [exact X|]. apply pow2_pos; lia. }
    intros m1 e1 m2 e2 a b D1 D2 V1 V2. symmetry. destruct (Z.compare_spec e1 e2) as [E|E|E].
    - subst e2. pose proof (pow2_pos (Z.max 0 (e1 + k)) ltac:(lia)) as Y. pose proof (pow2_pos (Z.max 0 (- (e1 + k))) ltac:(lia)) as Y2.
      change (Pos.compare_cont Eq m1 m2) with (Pos.compare m1 m2). change (Pos.compare m1 m2) with (Zpos m1 ?= Zpos m2).
      rewrite (Zmult_compare_compat_r a b (2 ^ Z.max 0 (- (e1 + k))) ltac:(lia)). rewrite <- V1, <- V2. symmetry. apply Zmult_compare_compat_r. lia.
    - apply Z.compare_lt_iff. eapply (LT m1 e1 m2 e2); eauto.
    - apply Z.compare_gt_iff. eapply (LT m2 e2 m1 e1); eauto. }
  assert (SG : forall m e r, Zpos m * 2 ^ Z.max 0 (e + k) = r * 2 ^ Z.max 0 (- (e + k)) -> 0 < r).
  { intros m e r V. pose proof (pow2_pos (Z.max 0 (e + k)) ltac:(lia)) as Y. pose proof (pow2_pos (Z.max 0 (- (e + k))) ltac:(lia)) as Y2. nia. }
  assert (SN : forall m e r, - Zpos m * 2 ^ Z.max 0 (e + k) = r * 2 ^ Z.max 0 (- (e + k)) -> Zpos m * 2 ^ Z.max 0 (e + k) = - r * 2 ^ Z.max 0 (- (e + k))) by lia.
  intros F1 F2 V1 V2. destruct x1 as [s1|s1| |s1 m1 e1]; try contradiction; destruct x2 as [s2|s2| |s2 m2 e2]; try contradiction; cbn [full value_is] in *; cbn [SFcompare]; f_equal.
  - subst. reflexivity.
  - subst r1. destruct s2; [apply SN in V2|]; apply SG in V2; symmetry; [apply Z.compare_gt_iff|apply Z.compare_lt_iff]; lia.
  - subst r2. destruct s1; [apply SN in V1|]; apply SG in V1; symmetry; [apply Z.compare_lt_iff|apply Z.compare_gt_iff]; lia.
  - destruct s1, s2.
    + apply SN in V1. apply SN in V2. pose proof (MM _ _ _ _ _ _ F1 F2 V1 V2) as X. rewrite Z.compare_opp in X. rewrite (Z.compare_antisym r1 r2) in X.
      rewrite <- (CompOpp_involutive (r1 ?= r2)), <- X. destruct (e1 ?= e2); reflexivity.
    + apply SN in V1. apply SG in V1. apply SG in V2. symmetry. apply Z.compare_lt_iff. lia.
    + apply SN in V2. apply SG in V1. apply SG in V2. symmetry. apply Z.compare_gt_iff. lia.
    + eapply MM; eauto.
Qed.
