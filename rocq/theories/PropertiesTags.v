(** C28: serialized type tags compare faithfully. *)
From Verif Require Import BaseProofs Flat.

(** Specification: the primitive type each tag of the two schema enums names
    (primitive.fbs:58-91), if any. *)
Definition kind_denotes (k : fbkind) : option prim :=
  match k with
  | KU8 => Some TU8 | KU16 => Some TU16 | KU32 => Some TU32 | KU64 => Some TU64
  | KI8 => Some TI8 | KI16 => Some TI16 | KI32 => Some TI32 | KI64 => Some TI64
  | KBool => Some TBool | KF32 => Some TF32 | KF64 => Some TF64 | KString => Some TString
  | KObjectHandle => Some TObjectHandle | KContractDataHandle => Some TContractDataHandle
  | KOther _ => None
  end.
Definition tag_denotes (g : fbtag) : option prim :=
  match g with
  | GU8 => Some TU8 | GU16 => Some TU16 | GU32 => Some TU32 | GU64 => Some TU64
  | GI8 => Some TI8 | GI16 => Some TI16 | GI32 => Some TI32 | GI64 => Some TI64
  | GBool => Some TBool | GF32 => Some TF32 | GF64 => Some TF64 | GFbString => Some TString
  | GObjectHandle => Some TObjectHandle | GContractDataHandle => Some TContractDataHandle
  | GNone | GOther _ => None
  end.

Theorem C28_kind_equals_type_iff_same :
  forall k t, kind_eq_ptype k t = true <-> exists p, kind_denotes k = Some p /\ t = TPrim p.
Proof.
  intros k t. split.
  - destruct k, t as [q|q]; cbn; try discriminate; destruct q; cbn; try discriminate; eauto.
  - intros [p [Hk ->]]. destruct k; cbn in Hk; try discriminate; injection Hk as <-; reflexivity.
Qed.
Print Assumptions C28_kind_equals_type_iff_same.

Theorem C28_type_equals_kind_iff_same :
  forall k t, ptype_eq_kind t k = true <-> exists p, kind_denotes k = Some p /\ t = TPrim p.
Proof. exact C28_kind_equals_type_iff_same. Qed.
Print Assumptions C28_type_equals_kind_iff_same.

Theorem C28_tag_equals_type_iff_same :
  forall g t, tag_eq_ptype g t = true <-> exists p, tag_denotes g = Some p /\ t = TPrim p.
Proof.
  intros k t. split.
  - destruct k, t as [q|q]; cbn; try discriminate; destruct q; cbn; try discriminate; eauto.
  - intros [p [Hk ->]]. destruct k; cbn in Hk; try discriminate; injection Hk as <-; reflexivity.
Qed.
Print Assumptions C28_tag_equals_type_iff_same.

Theorem C28_type_equals_tag_iff_same :
  forall g t, ptype_eq_tag t g = true <-> exists p, tag_denotes g = Some p /\ t = TPrim p.
Proof. exact C28_tag_equals_type_iff_same. Qed.
Print Assumptions C28_type_equals_tag_iff_same.

(** The tag written for a primitive type denotes that type. *)
Theorem C28_conversion_denotes_the_type :
  forall p, kind_denotes (kind_of_prim p) = Some p.
Proof. intros []; reflexivity. Qed.
Print Assumptions C28_conversion_denotes_the_type.

(** The tag stored with a value and the tag written for its type agree. *)
Theorem C28_conversion_accepted :
  forall p t, ptype_eq_kind t (kind_of_prim p) = true <-> t = TPrim p.
Proof.
  intros p t. rewrite C28_type_equals_kind_iff_same, C28_conversion_denotes_the_type.
  split; [intros [q [E ->]]; injection E as <-; reflexivity|eauto].
Qed.
Print Assumptions C28_conversion_accepted.

(** The two tag enums.  The claim [equal iff they denote the same type] is false
    both ways. *)
Theorem C28_tags_compare_wrongly_refuted :
  ~ (forall g k, tag_eq_kind g k = true -> tag_denotes g = kind_denotes k) /\
  ~ (forall g k p, tag_denotes g = Some p -> kind_denotes k = Some p -> tag_eq_kind g k = true).
Proof.
  split.
  - intros H. specialize (H GU32 KU64 eq_refl). discriminate.
  - intros H. specialize (H GU64 KU64 TU64 eq_refl eq_refl). discriminate.
Qed.
Print Assumptions C28_tags_compare_wrongly_refuted.

(** Exactly: right for every pair not involving U32 or U64 on the union side. *)
Theorem C28_tags_compare_exactly :
  forall g k, tag_eq_kind g k = true <->
    (g = GU32 /\ k = KU64) \/
    (g <> GU32 /\ g <> GU64 /\ exists p, tag_denotes g = Some p /\ kind_denotes k = Some p).
Proof.
  intros g k. split.
  - destruct g, k; cbn; try discriminate; intros _; try (left; split; reflexivity);
      right; (split; [discriminate|split; [discriminate|eexists; split; reflexivity]]).
  - intros [[-> ->]|[H1 [H2 [p [Hg Hk]]]]]; [reflexivity|].
    destruct g, k; cbn in *; congruence.
Qed.
Print Assumptions C28_tags_compare_exactly.
Theorem C28_tags_symmetric : forall g k, kind_eq_tag k g = tag_eq_kind g k.
Proof. reflexivity. Qed.
Print Assumptions C28_tags_symmetric.

(** Unknown and absent tags equal no type. *)
Example tags_example :
  tag_eq_ptype GU64 (TPrim TU64) = true /\ tag_eq_ptype GU64 (TPrim TU32) = false /\
  tag_eq_ptype GNone (TPrim TU8) = false /\ kind_eq_ptype (KOther 99) (TPrim TU8) = false /\
  kind_eq_ptype KU8 (TVec TU8) = false /\ ptype_eq_kind (TPrim TString) KString = true.
Proof. repeat split. Qed.
