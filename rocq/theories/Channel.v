(** Channels.  client/rust/src/contract/properties/channels/channel.rs. *)
From Verif Require Export Types.

(** channel.rs:5-21 [Keyframe { value, time: f64 }]. *)
Record keyframe : Type := mkKey { k_value : dynprop; k_time : Z }.

(** channel.rs:24 [Channel<T>(Vec<Keyframe<T>>)] together with its type argument
    [T], i.e. also [DynChannel] (channels/dyn_channel.rs). *)
Record channel : Type := mkChannel { ch_type : ptype; ch_keys : list keyframe }.

(** The typing that Rust enforces statically: every keyframe of a [Channel<T>]
    holds a [T]. *)
Definition channel_wt (c : channel) : Prop :=
  Forall (fun k => prop_type (k_value k) = ch_type c) (ch_keys c).

(** channel.rs:29-33: the comparator, [partial_cmp(..).unwrap_or(Equal)]. *)
Definition key_cmp (a b : keyframe) : comparison :=
  match f64_partial_cmp (k_time a) (k_time b) with
  | Some c => c
  | None => Eq
  end.

(** The contract of [slice::sort_unstable_by] (Rust core): the result is a
    permutation of the input, and if the comparator is a total preorder on the
    elements it is sorted.  When the comparator is not one the result is an
    unspecified permutation.  ("Total preorder" is: [Eq]/[Lt]/[Gt] are
    consistent and [<>Gt] is transitive.) *)
Definition total_preorder {A} (cmp : A -> A -> comparison) (l : list A) : Prop :=
  (forall a b, In a l -> In b l -> cmp a b = CompOpp (cmp b a)) /\
  (forall a b c, In a l -> In b l -> In c l ->
     cmp a b <> Gt -> cmp b c <> Gt -> cmp a c <> Gt).

Fixpoint sorted_by {A} (cmp : A -> A -> comparison) (l : list A) : Prop :=
  match l with
  | [] => True
  | x :: t => Forall (fun y => cmp x y <> Gt) t /\ sorted_by cmp t
  end.

Definition sort_unstable_by_rel {A} (cmp : A -> A -> comparison) (l l' : list A) : Prop :=
  Permutation l l' /\ (total_preorder cmp l -> sorted_by cmp l').

(** channel.rs:26-35 [Channel::new], as a relation because the sort is unstable. *)
Definition channel_new_rel (t : ptype) (keys : list keyframe) (c : channel) : Prop :=
  ch_type c = t /\ sort_unstable_by_rel key_cmp keys (ch_keys c).

(** A computable instance (insertion sort), used for examples only. *)
Fixpoint key_insert (k : keyframe) (l : list keyframe) : list keyframe :=
  match l with
  | [] => [k]
  | x :: t => match key_cmp k x with Gt => x :: key_insert k t | _ => k :: x :: t end
  end.
Fixpoint key_sort (l : list keyframe) : list keyframe :=
  match l with [] => [] | x :: t => key_insert x (key_sort t) end.

(** channel.rs:37-43 [keyframes] / [keyframes_mut]: the latter hands out the raw
    vector, modelled as replacing it. *)
Definition keyframes (c : channel) : list keyframe := ch_keys c.
Definition keyframes_set (c : channel) (ks : list keyframe) : channel :=
  mkChannel (ch_type c) ks.
