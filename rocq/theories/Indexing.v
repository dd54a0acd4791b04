(** [baseline[handle]]: the [Index] and [IndexMut] implementations of [Baseline].
    client/rust/src/baseline.rs:334-373. *)
From Verif Require Export ArenaIter Baseline.

(** [Result::expect]. *)
Definition expect {X} (o : outcome X) : outcome X :=
  match o with Ok x => Ok x | Err _ => Panic | Panic => Panic end.

(** baseline.rs:349-355 and 356-360 followed by [.value = v]. *)
Definition index_state (b : baseline) (t : ptype) (h : index) : outcome dynprop :=
  expect (state_get b t h).
Definition index_state_set (b : baseline) (h : index) (v : dynprop) : outcome unit * baseline :=
  let '(r, b') := state_set b h v in (expect r, b').
(** baseline.rs:362-368 and 369-373 followed by replacing [keyframes_mut()]. *)
Definition index_channel (b : baseline) (t : ptype) (h : index) : outcome channel :=
  expect (channel_get b t h).
Definition index_channel_set_keys (b : baseline) (t : ptype) (h : index) (ks : list keyframe)
  : outcome unit * baseline :=
  let '(r, b') := channel_set_keys b t h ks in (expect r, b').
(** baseline.rs:336-342 and 343-347 (the arena's own indexing, arena/src/lib.rs);
    the latter followed by setting the time warp. *)
Definition index_object (b : baseline) (o : index) : outcome object := index_op (b_objects b) o.
Definition index_object_set_warp (b : baseline) (o : index) (w : timewarp) : outcome unit * baseline :=
  match index_op (b_objects b) o with
  | Ok ob =>
      match index_set_op (b_objects b) o (mkObject (o_states ob) (o_channels ob) (o_contract ob) w) with
      | Ok os => (Ok tt, with_objects b os)
      | _ => (Panic, b)
      end
  | _ => (Panic, b)
  end.
