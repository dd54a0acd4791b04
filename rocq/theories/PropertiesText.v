(** C43: text survives the trip from C# to Rust and back. *)
From Verif Require Import TextProofs.
Open Scope Z_scope.

(** [s] is well-formed UTF-16: the encoding of some text. *)
Definition well_formed (s : list Z) : Prop := exists text, encodes utf16 text s.

(** Every non-empty well-formed C# string comes back unchanged, and the native
    string in between holds exactly the UTF-8 encoding of the same text. *)
Theorem C43_text_round_trip s text :
  encodes utf16 text s -> s <> [] ->
  exists native, rstring_new s = Returns native /\ encodes utf8 text native /\ rstring_value native = s.
Proof.
  intros E N. pose proof (proj1 (encodes_utf16_iff _ _) E) as [F ->].
  assert (C : Forall code_unit (encode_utf16 text)).
  { clear E N. induction F as [|z zs S F IH]; [constructor|]. cbn [encode_utf16 flat_map]. apply Forall_app. split; [|exact IH].
    destruct (units_spec z S) as [_ [[H ->]|(x & y & Hx & Hy & _ & ->)]]; unfold scalar in S; repeat constructor; unfold code_unit; lia. }
  pose proof (proj2 (strict_spec _ C text) E) as St. apply strict_is_lossy in St.
  exists (get_bytes (encode_utf16 text)). split; [now apply rstring_new_spec|]. unfold get_bytes, rstring_value. rewrite St. split.
  - apply encodes_utf8_iff. auto.
  - now rewrite decode_encode.
Qed.
Print Assumptions C43_text_round_trip.

(** Every other non-empty string is stored too, never aborting the process: it comes
    back with the same length and with exactly the unpaired surrogates replaced by
    U+FFFD. *)
Theorem C43_ill_formed_text_is_sanitised s : Forall code_unit s -> s <> [] ->
  exists native, rstring_new s = Returns native /\ (exists text, encodes utf8 text native) /\
    length (rstring_value native) = length s /\
    forall i u, nth_error s i = Some u ->
      (paired s i -> nth_error (rstring_value native) i = Some u) /\
      (~ paired s i -> nth_error (rstring_value native) i = Some 0xFFFD).
Proof.
  intros F N. exists (get_bytes s). split; [now apply rstring_new_spec|]. split.
  { exists (scalars_lossy s). apply encodes_utf8_iff. split; [now apply lossy_scalars|reflexivity]. }
  rewrite rstring_value_spec by exact F. destruct (sanitize_spec s) as [L H]. split; [exact L|].
  intros i u Hi. destruct (H i u Hi) as [[P E]|[P E]]; split; intros Q; try contradiction; exact E.
Qed.
Print Assumptions C43_ill_formed_text_is_sanitised.

(** So exactly the well-formed strings are unchanged, and these are the strings
    without unpaired surrogate. *)
Theorem C43_unchanged_iff_well_formed s : Forall code_unit s -> s <> [] ->
  ((exists native, rstring_new s = Returns native /\ rstring_value native = s) <-> well_formed s) /\
  (well_formed s <-> forall i, (i < length s)%nat -> paired s i).
Proof.
  intros F N. destruct (sanitize_spec s) as [L H].
  assert (A : (exists native, rstring_new s = Returns native /\ rstring_value native = s) <-> sanitize s = s).
  { split.
    - intros (n & E & V). rewrite rstring_new_spec in E by assumption. injection E as <-. now rewrite rstring_value_spec in V.
    - intros E. exists (get_bytes s). split; [now apply rstring_new_spec|]. now rewrite rstring_value_spec. }
  assert (B : sanitize s = s <-> well_formed s).
  { split.
    - intros E. exists (scalars_lossy s). apply encodes_utf16_iff. split; [now apply lossy_scalars|]. rewrite lossy_units by exact F. congruence.
    - intros [t T]. destruct (C43_text_round_trip s t T N) as (n & E & _ & V). rewrite rstring_new_spec in E by assumption.
      injection E as <-. now rewrite rstring_value_spec in V. }
  split; [now rewrite A|]. rewrite <- B. split.
  - intros E i Hi. destruct (nth_error s i) as [u|] eqn:Eu; [|apply nth_error_Some in Hi; congruence].
    destruct (H i u Eu) as [[P _]|[P Q]]; [exact P|]. exfalso. rewrite E, Eu in Q. injection Q as ->. apply P.
    exists replacement. split; [exact Eu|]. left. unfold high_surrogate, low_surrogate, replacement. lia.
  - intros P. apply nth_ext with (d := 0) (d' := 0); [exact L|]. intros i Hi. rewrite L in Hi.
    destruct (nth_error s i) as [u|] eqn:Eu; [|apply nth_error_Some in Hi; congruence].
    destruct (H i u Eu) as [[_ Q]|[Q _]]; [|exfalso; apply Q; now apply P].
    rewrite (nth_error_nth _ _ 0 Q), (nth_error_nth _ _ 0 Eu). reflexivity.
Qed.
Print Assumptions C43_unchanged_iff_well_formed.

(** The claim for all strings is false: the empty string throws. *)
Theorem C43_empty_string_refuted : well_formed [] /\ rstring_new [] = Throws.
Proof. split; [exists []; constructor|reflexivity]. Qed.
Print Assumptions C43_empty_string_refuted.

(** An empty native string, however, is read as the empty string; and every native
    text is read as its UTF-16 encoding. *)
Theorem C43_native_text_is_read_exactly text native : encodes utf8 text native ->
  encodes utf16 text (rstring_value native).
Proof.
  intros E. apply encodes_utf8_iff in E. destruct E as [F ->]. apply encodes_utf16_iff. split; [exact F|].
  unfold rstring_value. now rewrite decode_encode.
Qed.
Print Assumptions C43_native_text_is_read_exactly.

(** The native constructor from bytes stores them unchanged if they are the UTF-8
    encoding of a text, and otherwise aborts the process. *)
Theorem C43_copy_utf8_accepts_exactly_utf8 bs : Forall (fun b => 0 <= b <= 255) bs ->
  ((exists text, encodes utf8 text bs) -> copy_utf8 bs = Returns bs) /\
  (~ (exists text, encodes utf8 text bs) -> copy_utf8 bs = Aborts).
Proof.
  intros F. unfold copy_utf8. destruct (valid_utf8 bs) eqn:V; split; intros H; auto.
  - exfalso. apply H. destruct (valid_sound (S (length bs)) bs (Nat.lt_succ_diag_r _) F V) as (zs & Fz & ->).
    exists zs. now apply encodes_utf8_iff.
  - destruct H as [text E]. apply encodes_utf8_iff in E. destruct E as [Fz ->]. rewrite valid_encode in V by exact Fz. discriminate.
Qed.
Print Assumptions C43_copy_utf8_accepts_exactly_utf8.

(** The native constructor from UTF-16 accepts exactly the well-formed strings and
    stores the same text; on these it agrees with the C# path. *)
Theorem C43_copy_utf16_accepts_exactly_utf16 s : Forall code_unit s ->
  (forall text, encodes utf16 text s -> exists native, copy_utf16 s = Returns native /\ encodes utf8 text native /\
     (s <> [] -> rstring_new s = Returns native)) /\
  (~ well_formed s -> copy_utf16 s = Aborts).
Proof.
  intros F. split.
  - intros text E. pose proof (proj2 (strict_spec _ F text) E) as St. unfold copy_utf16. rewrite St.
    exists (encode_utf8 text). split; [reflexivity|]. split.
    + apply encodes_utf8_iff. split; [|reflexivity]. now apply encodes_utf16_iff in E.
    + intros N. rewrite rstring_new_spec by assumption. unfold get_bytes. now rewrite (strict_is_lossy _ _ St).
  - intros N. unfold copy_utf16. destruct (scalars_strict s) as [zs|] eqn:St; [|reflexivity]. exfalso. apply N. exists zs. now apply strict_spec.
Qed.
Print Assumptions C43_copy_utf16_accepts_exactly_utf16.

(** UTF-8 and UTF-16 are unambiguous: two texts with one encoding are equal. *)
Theorem C43_encodings_are_unambiguous text text' s :
  (encodes utf8 text s -> encodes utf8 text' s -> text = text') /\
  (encodes utf16 text s -> encodes utf16 text' s -> text = text').
Proof.
  assert (U8 : forall a b s, encodes utf8 a s -> encodes utf8 b s -> a = b).
  { intros a b t H1 H2. apply encodes_utf8_iff in H1, H2. destruct H1 as [F1 ->], H2 as [F2 E].
    rewrite <- (decode_encode a F1), <- (decode_encode b F2). now rewrite E. }
  split; [apply U8|]. intros H1 H2. destruct s as [|u s].
  - apply encodes_utf16_iff in H1, H2. destruct H1 as [_ H1], H2 as [_ H2].
    assert (Z : forall l, [] = encode_utf16 l -> l = []).
    { intros [|z l] E; [reflexivity|]. cbn in E. unfold units_of_scalar in E. destruct (z <? 65536); discriminate. }
    now rewrite (Z _ H1), (Z _ H2).
  - destruct (C43_text_round_trip _ _ H1) as (n1 & E1 & T1 & _); [discriminate|].
    destruct (C43_text_round_trip _ _ H2) as (n2 & E2 & T2 & _); [discriminate|].
    assert (n1 = n2) by congruence. subst n2. eapply U8; eauto.
Qed.
Print Assumptions C43_encodings_are_unambiguous.

(** "a", e-acute, the euro sign and a treble clef (U+1D11E); then a lone high
    surrogate between two letters; then overlong and surrogate bytes. *)
Definition c43_text : list Z := [0x61; 0xE9; 0x20AC; 0x1D11E].
Definition c43_units : list Z := [0x61; 0xE9; 0x20AC; 0xD834; 0xDD1E].
Definition c43_bytes : list Z := [0x61; 0xC3; 0xA9; 0xE2; 0x82; 0xAC; 0xF0; 0x9D; 0x84; 0x9E].
Example C43_example :
  encodes utf16 c43_text c43_units /\ encodes utf8 c43_text c43_bytes /\
  rstring_new c43_units = Returns c43_bytes /\ rstring_value c43_bytes = c43_units /\
  Forall code_unit [0x61; 0xD834; 0x62] /\ ~ well_formed [0x61; 0xD834; 0x62] /\
  rstring_new [0x61; 0xD834; 0x62] = Returns [0x61; 0xEF; 0xBF; 0xBD; 0x62] /\
  copy_utf16 [0x61; 0xD834; 0x62] = Aborts /\
  copy_utf8 [0xC0; 0x80] = Aborts /\ copy_utf8 [0xED; 0xA0; 0x80] = Aborts /\ copy_utf8 [] = Returns [].
Proof.
  assert (F : Forall scalar c43_text) by (repeat constructor; unfold scalar; lia).
  split; [apply encodes_utf16_iff; auto|]. split; [apply encodes_utf8_iff; auto|].
  split; [reflexivity|]. split; [reflexivity|].
  assert (F2 : Forall code_unit [0x61; 0xD834; 0x62]) by (repeat constructor; unfold code_unit; lia).
  split; [exact F2|]. split; [|repeat split; reflexivity].
  intros [t T]. apply strict_spec in T; [discriminate|exact F2].
Qed.
