(** Proofs about strings across the C boundary. *)
From Verif Require Export Text TextSpec.
From Coq Require Import ZifyBool.
Open Scope Z_scope.
Ltac Zify.zify_post_hook ::= Z.to_euclidean_division_equations.

Ltac ifs := repeat match goal with |- context [if ?b then _ else _] => let E := fresh "E" in destruct b eqn:E; try lia end.

Lemma encode_scalar_spec z : scalar z -> utf8 z (encode_scalar z).
Proof.
  intros S. split; [exact S|]. unfold scalar in S. unfold encode_scalar. ifs.
  - left. split; [lia|reflexivity].
  - right; left. exists (z / 64), (z mod 64). repeat split; lia.
  - right; right; left. exists (z / 4096), ((z / 64) mod 64), (z mod 64). repeat split; lia.
  - right; right; right. exists (z / 262144), ((z / 4096) mod 64), ((z / 64) mod 64), (z mod 64). repeat split; lia.
Qed.
Lemma utf8_unique z bs : utf8 z bs -> bs = encode_scalar z.
Proof.
  intros [S H]. unfold scalar in S. unfold encode_scalar.
  destruct H as [[H ->]|[(x & y & H)|[(x & y & w & H)|(x & y & w & v & H)]]].
  - ifs. reflexivity.
  - destruct H as (H1 & H2 & H3 & H4 & ->). ifs. repeat f_equal; lia.
  - destruct H as (H1 & H2 & H3 & H4 & H5 & ->). ifs. repeat f_equal; lia.
  - destruct H as (H1 & H2 & H3 & H4 & H5 & H6 & ->). ifs. repeat f_equal; lia.
Qed.
Lemma units_spec z : scalar z -> utf16 z (units_of_scalar z).
Proof.
  intros S. split; [exact S|]. unfold scalar in S. unfold units_of_scalar. ifs.
  - left. split; [lia|reflexivity].
  - right. exists ((z - 0x10000) / 1024), ((z - 0x10000) mod 1024). repeat split; lia.
Qed.
Lemma utf16_unique z us : utf16 z us -> us = units_of_scalar z.
Proof.
  intros [S H]. unfold scalar in S. unfold units_of_scalar. destruct H as [[H ->]|(x & y & H1 & H2 & H3 & ->)].
  - ifs. reflexivity.
  - ifs. repeat f_equal; lia.
Qed.

Lemma encodes_utf8_iff zs bs : encodes utf8 zs bs <-> Forall scalar zs /\ bs = encode_utf8 zs.
Proof.
  split.
  - induction 1 as [|z zs c cs H1 H IH]; [auto|]. destruct IH as [F ->]. split; [constructor; [apply H1|exact F]|].
    cbn. f_equal. now apply utf8_unique.
  - intros [F ->]. induction F as [|z zs S F IH]; cbn; [constructor|]. constructor; [now apply encode_scalar_spec|exact IH].
Qed.
Lemma encodes_utf16_iff zs us : encodes utf16 zs us <-> Forall scalar zs /\ us = encode_utf16 zs.
Proof.
  split.
  - induction 1 as [|z zs c cs H1 H IH]; [auto|]. destruct IH as [F ->]. split; [constructor; [apply H1|exact F]|].
    cbn. f_equal. now apply utf16_unique.
  - intros [F ->]. induction F as [|z zs S F IH]; cbn; [constructor|]. constructor; [now apply units_spec|exact IH].
Qed.

Lemma decode_one z r : scalar z -> decode_utf8 (encode_scalar z ++ r) = z :: decode_utf8 r.
Proof.
  unfold scalar. intros S. unfold encode_scalar.
  destruct (z <? 128) eqn:E1; [|destruct (z <? 2048) eqn:E2; [|destruct (z <? 65536) eqn:E3]]; cbn [app decode_utf8].
  - rewrite E1. reflexivity.
  - ifs. f_equal. lia.
  - ifs. f_equal. lia.
  - ifs. f_equal. lia.
Qed.
Lemma decode_encode zs : Forall scalar zs -> decode_utf8 (encode_utf8 zs) = zs.
Proof. induction 1 as [|z zs S F IH]; [reflexivity|]. cbn [encode_utf8 flat_map]. rewrite decode_one by exact S. f_equal. exact IH. Qed.

Lemma valid_one z r : scalar z -> valid_utf8 (encode_scalar z ++ r) = valid_utf8 r.
Proof.
  unfold scalar. intros S. unfold encode_scalar.
  destruct (z <? 128) eqn:E1; [|destruct (z <? 2048) eqn:E2; [|destruct (z <? 65536) eqn:E3]]; cbn [app valid_utf8].
  - rewrite E1. reflexivity.
  - replace (192 + z / 64 <? 128) with false by lia.
    replace (lead2 (192 + z / 64)) with true by (unfold lead2, within; lia).
    replace (cont (128 + z mod 64)) with true by (unfold cont; lia). reflexivity.
  - replace (224 + z / 4096 <? 128) with false by lia.
    replace (lead2 (224 + z / 4096)) with false by (unfold lead2, within; lia).
    replace (pair3 (224 + z / 4096) (128 + (z / 64) mod 64)) with true by (unfold pair3, within, cont; lia).
    replace (cont (128 + z mod 64)) with true by (unfold cont; lia). reflexivity.
  - replace (240 + z / 262144 <? 128) with false by lia.
    replace (lead2 (240 + z / 262144)) with false by (unfold lead2, within; lia).
    replace (pair3 (240 + z / 262144) (128 + (z / 4096) mod 64)) with false by (unfold pair3, within, cont; lia).
    replace (pair4 (240 + z / 262144) (128 + (z / 4096) mod 64)) with true by (unfold pair4, within, cont; lia).
    replace (cont (128 + (z / 64) mod 64)) with true by (unfold cont; lia).
    replace (cont (128 + z mod 64)) with true by (unfold cont; lia). reflexivity.
Qed.
Lemma valid_encode zs : Forall scalar zs -> valid_utf8 (encode_utf8 zs) = true.
Proof. induction 1 as [|z zs S F IH]; [reflexivity|]. cbn [encode_utf8 flat_map]. rewrite valid_one by exact S. exact IH. Qed.

Definition byte (b : Z) : Prop := 0 <= b <= 255.
Lemma valid_sound n : forall bs, (length bs < n)%nat -> Forall byte bs -> valid_utf8 bs = true ->
  exists zs, Forall scalar zs /\ bs = encode_utf8 zs.
Proof.
  induction n as [|n IH]; intros bs L F V; [lia|].
  assert (Go : forall z c r, utf8 z c -> bs = c ++ r -> (length r < n)%nat -> Forall byte r -> valid_utf8 r = true ->
            exists zs, Forall scalar zs /\ bs = encode_utf8 zs).
  { intros z c r U -> Lr Fr Vr. destruct (IH r Lr Fr Vr) as (zs & Fz & ->). exists (z :: zs). split.
    - constructor; [apply U|exact Fz].
    - cbn. f_equal. now apply utf8_unique. }
  destruct bs as [|a t]; [exists []; auto|]. cbn [length] in L. inversion F as [|? ? Ha F1]; subst. unfold byte in Ha.
  cbn [valid_utf8] in V. destruct (a <? 128) eqn:E1.
  { apply (Go a [a] t); [|reflexivity|lia|exact F1|exact V]. split; [unfold scalar; lia|]. left. split; [lia|reflexivity]. }
  destruct t as [|b t1]; [discriminate|]. cbn [length] in L. inversion F1 as [|? ? Hb F2]; subst. unfold byte in Hb.
  destruct (lead2 a) eqn:E2.
  { apply andb_true_iff in V. destruct V as [Vb V]. unfold lead2, within, cont in *.
    apply (Go ((a - 192) * 64 + (b - 128)) [a; b] t1); [|reflexivity|lia|exact F2|exact V].
    split; [unfold scalar; lia|]. right; left. exists (a - 192), (b - 128). repeat split; try lia. repeat f_equal; lia. }
  destruct t1 as [|c t2]; [discriminate|]. cbn [length] in L. inversion F2 as [|? ? Hc F3]; subst. unfold byte in Hc.
  destruct (pair3 a b) eqn:E3.
  { apply andb_true_iff in V. destruct V as [Vc V]. unfold pair3, within, cont in *.
    apply (Go ((a - 224) * 4096 + (b - 128) * 64 + (c - 128)) [a; b; c] t2); [|reflexivity|lia|exact F3|exact V].
    split; [unfold scalar; lia|]. right; right; left. exists (a - 224), (b - 128), (c - 128). repeat split; try lia. repeat f_equal; lia. }
  destruct t2 as [|d t3]; [discriminate|]. cbn [length] in L. inversion F3 as [|? ? Hd F4]; subst. unfold byte in Hd.
  repeat rewrite andb_true_iff in V. destruct V as [[[V4 Vc] Vd] V]. unfold pair4, within, cont in *.
  apply (Go ((a - 240) * 262144 + (b - 128) * 4096 + (c - 128) * 64 + (d - 128)) [a; b; c; d] t3); [|reflexivity|lia|exact F4|exact V].
  split; [unfold scalar; lia|]. right; right; right. exists (a - 240), (b - 128), (c - 128), (d - 128). repeat split; try lia. repeat f_equal; lia.
Qed.

Lemma is_high_iff u : is_high u = true <-> high_surrogate u.
Proof. unfold is_high, high_surrogate. lia. Qed.
Lemma is_low_iff u : is_low u = true <-> low_surrogate u.
Proof. unfold is_low, low_surrogate. lia. Qed.

(** Induction in the steps of the decoders. *)
Lemma units_ind (P : list Z -> Prop) :
  P [] ->
  (forall u l t, is_high u = true -> is_low l = true -> P t -> P (u :: l :: t)) ->
  (forall u t, is_high u = true -> match t with l :: _ => is_low l = false | [] => True end -> P t -> P (u :: t)) ->
  (forall u t, is_high u = false -> is_low u = true -> P t -> P (u :: t)) ->
  (forall u t, is_high u = false -> is_low u = false -> P t -> P (u :: t)) ->
  forall us, P us.
Proof.
  intros H0 Hp Hh Hl Hn us.
  assert (G : forall n us, (length us < n)%nat -> P us).
  { induction n as [|n IH]; intros vs L; [lia|]. destruct vs as [|u t]; [exact H0|]. cbn [length] in L.
    destruct (is_high u) eqn:E.
    - destruct t as [|l t']; [apply Hh; auto|]. cbn [length] in L. destruct (is_low l) eqn:El.
      + apply Hp; auto. apply IH. lia.
      + apply Hh; auto. apply IH. cbn [length]. lia.
    - destruct (is_low u) eqn:El; [apply Hl|apply Hn]; auto; apply IH; lia. }
  apply (G (S (length us))). lia.
Qed.

Lemma lossy_pair u l t : is_high u = true -> is_low l = true -> scalars_lossy (u :: l :: t) = join u l :: scalars_lossy t.
Proof. intros H L. cbn [scalars_lossy]. now rewrite H, L. Qed.
Lemma lossy_high u t : is_high u = true -> match t with l :: _ => is_low l = false | [] => True end ->
  scalars_lossy (u :: t) = replacement :: scalars_lossy t.
Proof. intros H L. cbn [scalars_lossy]. rewrite H. destruct t as [|l t]; [reflexivity|]. now rewrite L. Qed.
Lemma lossy_low u t : is_high u = false -> is_low u = true -> scalars_lossy (u :: t) = replacement :: scalars_lossy t.
Proof. intros H L. cbn [scalars_lossy]. now rewrite H, L. Qed.
Lemma lossy_plain u t : is_high u = false -> is_low u = false -> scalars_lossy (u :: t) = u :: scalars_lossy t.
Proof. intros H L. cbn [scalars_lossy]. now rewrite H, L. Qed.

Lemma join_scalar u l : is_high u = true -> is_low l = true -> scalar (join u l) /\ units_of_scalar (join u l) = [u; l].
Proof.
  unfold is_high, is_low, scalar, join. intros H L. split; [lia|]. unfold units_of_scalar. ifs. repeat f_equal; lia.
Qed.
Lemma lossy_scalars us : Forall code_unit us -> Forall scalar (scalars_lossy us).
Proof.
  induction us as [|u l t H L IH|u t H L IH|u t H L IH|u t H L IH] using units_ind; intros F.
  - constructor.
  - rewrite lossy_pair by assumption. inversion F as [|? ? _ F1]; subst. inversion F1; subst. constructor; [apply join_scalar; assumption|auto].
  - rewrite lossy_high by assumption. inversion F; subst. constructor; [unfold scalar, replacement; lia|auto].
  - rewrite lossy_low by assumption. inversion F; subst. constructor; [unfold scalar, replacement; lia|auto].
  - rewrite lossy_plain by assumption. inversion F as [|? ? C F1]; subst. constructor; [|auto].
    unfold is_high, is_low, code_unit, scalar in *. lia.
Qed.

(** The lossy conversion, position by position. *)
Fixpoint sanitize (us : list Z) : list Z :=
  match us with
  | [] => []
  | u :: t =>
      if is_high u then
        match t with
        | l :: t' => if is_low l then u :: l :: sanitize t' else replacement :: sanitize t
        | [] => [replacement]
        end
      else if is_low u then replacement :: sanitize t
      else u :: sanitize t
  end.
Lemma units_small z : 0 <= z -> z < 0x10000 -> units_of_scalar z = [z].
Proof. intros. unfold units_of_scalar. ifs. reflexivity. Qed.
Lemma lossy_units us : Forall code_unit us -> encode_utf16 (scalars_lossy us) = sanitize us.
Proof.
  induction us as [|u l t H L IH|u t H L IH|u t H L IH|u t H L IH] using units_ind; intros F.
  - reflexivity.
  - rewrite lossy_pair by assumption. inversion F as [|? ? _ F1]; subst. inversion F1; subst.
    cbn [encode_utf16 flat_map sanitize]. rewrite (proj2 (join_scalar _ _ H L)), H, L. cbn [app]. do 2 f_equal. now apply IH.
  - rewrite lossy_high by assumption. inversion F; subst. cbn [encode_utf16 flat_map sanitize]. rewrite H.
    rewrite units_small by (unfold replacement; lia). cbn [app].
    destruct t as [|l t]; [reflexivity|]. rewrite L. f_equal. now apply IH.
  - rewrite lossy_low by assumption. inversion F; subst. cbn [encode_utf16 flat_map sanitize]. rewrite H, L.
    rewrite units_small by (unfold replacement; lia). cbn [app]. f_equal. now apply IH.
  - rewrite lossy_plain by assumption. inversion F as [|? ? C F1]; subst. cbn [encode_utf16 flat_map sanitize]. rewrite H, L.
    unfold code_unit in C. rewrite units_small by lia. cbn [app]. f_equal. now apply IH.
Qed.

(** [paired] is local. *)
Lemma paired_cons u t i : ~ (is_high u = true /\ exists l t', t = l :: t' /\ is_low l = true) ->
  paired (u :: t) (S i) <-> paired t i.
Proof.
  intros N. unfold paired. split; intros (x & Hx & D); exists x; (split; [exact Hx|]).
  - destruct D as [D|[D|(Dl & j & h & E & Hh & Hd)]]; auto. right; right. split; [exact Dl|].
    injection E as <-. destruct i as [|i]; [|exists i, h; cbn in Hh; auto].
    exfalso. apply N. cbn in Hh. injection Hh as ->. split; [now apply is_high_iff|].
    destruct t as [|l t']; [discriminate|]. cbn in Hx. injection Hx as ->. exists x, t'. split; auto. now apply is_low_iff.
  - destruct D as [D|[D|(Dl & j & h & -> & Hh & Hd)]]; auto. right; right. split; [exact Dl|]. exists (S j), h. auto.
Qed.

Lemma sanitize_spec us : length (sanitize us) = length us /\
  forall i u, nth_error us i = Some u ->
    (paired us i /\ nth_error (sanitize us) i = Some u) \/ (~ paired us i /\ nth_error (sanitize us) i = Some replacement).
Proof.
  induction us as [|u l t H L IH|u t H L IH|u t H L IH|u t H L IH] using units_ind.
  - split; [reflexivity|]. intros [|i] u; discriminate.
  - destruct IH as [IHl IH]. cbn [sanitize]. rewrite H, L. split; [cbn; lia|].
    pose proof (proj1 (is_high_iff u) H) as Hh. pose proof (proj1 (is_low_iff l) L) as Hl.
    intros [|[|i]] x Hx; cbn in Hx.
    + injection Hx as <-. left. split; [|reflexivity]. exists u. split; [reflexivity|]. right; left. split; [exact Hh|]. exists l. auto.
    + injection Hx as <-. left. split; [|reflexivity]. exists l. split; [reflexivity|]. right; right. split; [exact Hl|]. exists 0%nat, u. auto.
    + assert (P : paired (u :: l :: t) (S (S i)) <-> paired t i).
      { unfold paired. split; intros (x' & Hx' & D); exists x'; (split; [exact Hx'|]).
        - destruct D as [D|[D|(Dl & j & h & E & Hh' & Hd)]]; auto. right; right. split; [exact Dl|].
          injection E as <-. destruct i as [|i]; [|exists i, h; cbn in Hh'; auto].
          exfalso. cbn in Hh'. injection Hh' as ->. unfold high_surrogate, low_surrogate in *. lia.
        - destruct D as [D|[D|(Dl & j & h & -> & Hh' & Hd)]]; auto. right; right. split; [exact Dl|]. exists (S (S j)), h. auto. }
      cbn [nth_error]. rewrite P. now apply IH.
  - destruct IH as [IHl IH].
    assert (E : sanitize (u :: t) = replacement :: sanitize t).
    { cbn [sanitize]. rewrite H. destruct t as [|l t]; [reflexivity|]. now rewrite L. }
    rewrite E. split; [cbn; lia|]. intros [|i] x Hx; cbn in Hx.
    + injection Hx as <-. right. split; [|reflexivity]. apply is_high_iff in H. intros (x & Hx & D). cbn in Hx. injection Hx as <-.
      destruct D as [[D _]|[(_ & l & Hl & Dl)|(_ & j & h & E' & _)]]; [contradiction| |discriminate].
      cbn in Hl. destruct t as [|l' t]; [discriminate|]. cbn in Hl. injection Hl as ->. apply is_low_iff in Dl. congruence.
    + cbn [nth_error]. rewrite paired_cons; [now apply IH|]. intros [_ (l & t' & -> & Hl)]. congruence.
  - destruct IH as [IHl IH]. cbn [sanitize]. rewrite H, L. split; [cbn; lia|]. intros [|i] x Hx; cbn in Hx.
    + injection Hx as <-. right. split; [|reflexivity]. apply is_low_iff in L. intros (x & Hx & D). cbn in Hx. injection Hx as <-.
      destruct D as [[_ D]|[(Dh & _)|(_ & j & h & E' & _)]]; [contradiction| |discriminate]. apply is_high_iff in Dh. congruence.
    + cbn [nth_error]. rewrite paired_cons; [now apply IH|]. intros [Hh _]. congruence.
  - destruct IH as [IHl IH]. cbn [sanitize]. rewrite H, L. split; [cbn; lia|]. intros [|i] x Hx; cbn in Hx.
    + injection Hx as <-. left. split; [|reflexivity]. exists u. split; [reflexivity|]. left.
      rewrite <- is_high_iff, <- is_low_iff. split; congruence.
    + cbn [nth_error]. rewrite paired_cons; [now apply IH|]. intros [Hh _]. congruence.
Qed.

Lemma get_bytes_nil us : get_bytes us = [] -> us = [].
Proof.
  unfold get_bytes. assert (N : forall z r, encode_scalar z ++ r <> []).
  { intros z r. unfold encode_scalar. destruct (_ <? _); [discriminate|]. destruct (_ <? _); [discriminate|]. destruct (_ <? _); discriminate. }
  destruct us as [|u t]; [reflexivity|]. cbn [scalars_lossy]. intros H. exfalso. revert H.
  destruct (is_high u); [destruct t as [|l t']; [|destruct (is_low l)]|destruct (is_low u)]; cbn [encode_utf8 flat_map]; apply N.
Qed.
Lemma rstring_new_spec us : Forall code_unit us -> us <> [] -> rstring_new us = Returns (get_bytes us).
Proof.
  intros F N. unfold rstring_new. destruct (get_bytes us) as [|b bs] eqn:E; [exfalso; apply N; now apply get_bytes_nil|].
  rewrite <- E. unfold copy_utf8, get_bytes. rewrite valid_encode by now apply lossy_scalars. reflexivity.
Qed.
Lemma rstring_value_spec us : Forall code_unit us -> rstring_value (get_bytes us) = sanitize us.
Proof. intros F. unfold rstring_value, get_bytes. rewrite decode_encode by now apply lossy_scalars. now apply lossy_units. Qed.

Lemma strict_spec us : Forall code_unit us -> forall zs, scalars_strict us = Some zs <-> encodes utf16 zs us.
Proof.
  induction us as [|u l t H L IH|u t H L IH|u t H L IH|u t H L IH] using units_ind; intros F zs.
  - cbn. split; [intros E; injection E as <-; constructor|]. intros E. apply encodes_utf16_iff in E. destruct E as [_ E].
    destruct zs as [|z zs]; [reflexivity|]. cbn in E. unfold units_of_scalar in E. destruct (z <? 65536); discriminate.
  - inversion F as [|? ? _ F1]; subst. inversion F1 as [|? ? _ F2]; subst. cbn [scalars_strict]. rewrite H, L. split.
    + destruct (scalars_strict t) as [zs'|]; [|discriminate]. cbn. intros E; injection E as <-.
      assert (G : encodes utf16 zs' t) by (apply IH; auto). destruct (join_scalar _ _ H L) as [S U].
      change (u :: l :: t) with ([u; l] ++ t). constructor; [|exact G]. rewrite <- U. now apply units_spec.
    + intros E. inversion E as [|z zs' c cs U E' Ez Eq]; subst. destruct U as [Sz [[Hz ->]|(x & y & Hx & Hy & -> & ->)]].
      * exfalso. cbn [app] in Eq. injection Eq as -> _. unfold is_high, scalar in *. lia.
      * cbn [app] in Eq. assert (Eu : u = 0xD800 + x) by congruence. assert (El : l = 0xDC00 + y) by congruence.
        assert (Et : cs = t) by congruence. subst cs. apply IH in E'; [|exact F2]. rewrite E'. cbn [option_map]. do 2 f_equal. unfold join. lia.
  - inversion F as [|? ? _ F1]; subst. cbn [scalars_strict]. rewrite H. split.
    + destruct t as [|l t]; [discriminate|]. rewrite L. discriminate.
    + intros E. exfalso. inversion E as [|z zs' c cs U E' Ez Eq]; subst. destruct U as [Sz [[Hz ->]|(x & y & Hx & Hy & -> & ->)]].
      * cbn [app] in Eq. injection Eq as -> _. unfold is_high, scalar in *. lia.
      * cbn [app] in Eq. destruct t as [|l t]; [discriminate|]. assert (El : l = 0xDC00 + y) by congruence. unfold is_low in L. lia.
  - inversion F as [|? ? _ F1]; subst. cbn [scalars_strict]. rewrite H, L. split; [discriminate|].
    intros E. exfalso. inversion E as [|z zs' c cs U E' Ez Eq]; subst. destruct U as [Sz [[Hz ->]|(x & y & Hx & Hy & -> & ->)]].
    + cbn [app] in Eq. injection Eq as -> _. unfold is_low, scalar in *. lia.
    + cbn [app] in Eq. assert (Eu : u = 0xD800 + x) by congruence. unfold is_high in H. lia.
  - inversion F as [|? ? C F1]; subst. cbn [scalars_strict]. rewrite H, L. split.
    + destruct (scalars_strict t) as [zs'|]; [|discriminate]. cbn. intros E; injection E as <-.
      assert (G : encodes utf16 zs' t) by (apply IH; auto).
      change (u :: t) with ([u] ++ t). constructor; [|exact G].
      unfold code_unit, is_high, is_low in *. split; [unfold scalar; lia|]. left. split; [lia|reflexivity].
    + intros E. inversion E as [|z zs' c cs U E' Ez Eq]; subst. destruct U as [Sz [[Hz ->]|(x & y & Hx & Hy & -> & ->)]].
      * cbn [app] in Eq. injection Eq as -> ->. apply IH in E'; [|exact F1]. rewrite E'. reflexivity.
      * exfalso. cbn [app] in Eq. assert (Eu : u = 0xD800 + x) by congruence. unfold is_high in H. lia.
Qed.
Lemma strict_is_lossy us : forall zs, scalars_strict us = Some zs -> scalars_lossy us = zs.
Proof.
  induction us as [|u l t H L IH|u t H L IH|u t H L IH|u t H L IH] using units_ind; intros zs; cbn [scalars_strict scalars_lossy].
  - intros E; injection E as <-; reflexivity.
  - rewrite H, L. destruct (scalars_strict t) as [zs'|]; [|discriminate]. cbn. intros E; injection E as <-. f_equal. auto.
  - rewrite H. destruct t as [|l t]; [discriminate|]. rewrite L. discriminate.
  - rewrite H, L. discriminate.
  - rewrite H, L. destruct (scalars_strict t) as [zs'|]; [|discriminate]. cbn. intros E; injection E as <-. f_equal. auto.
Qed.
