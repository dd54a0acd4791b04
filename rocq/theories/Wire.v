(** The bytes of a saved baseline.

    The schema is the project's (client/serialize/flatbuffers/*.fbs); what is done with it
    is the code flatc generates and the crate flatbuffers 22.12.6 (Cargo.lock:1575-1576),
    both modelled here from the crate: reading a table, checking a buffer
    ([flatbuffers::root], deserializer/new/mod.rs:77), and writing ([FlatBufferBuilder],
    serializer/mod.rs).

    Simplifications: positions are natural numbers (no wrap-around: the crate saturates, and
    nothing that long is in a buffer); the depth limit (64) is left out, since the schema has
    no recursion; the search in the sorted cache of vtables is a search in a list. *)
From Verif Require Export Flat.
From Verif Require Import Text.
From Coq Require Strings.Ascii.
Open Scope nat_scope.

(** ** Numbers, little endian *)
Fixpoint le (l : list Z) : Z := match l with [] => 0 | x :: r => x + 256 * le r end%Z.
Fixpoint put (n : nat) (v : Z) : list Z :=
  match n with O => [] | S k => (v mod 256)%Z :: put k (v / 256)%Z end.
Definition get (n : nat) (b : list Z) (p : nat) : option Z :=
  if p + n <=? length b then Some (le (firstn n (skipn p b))) else None.
Definition signed (n : nat) (v : Z) : Z :=
  (if v <? 2 ^ (8 * Z.of_nat n - 1) then v else v - 2 ^ (8 * Z.of_nat n))%Z.

Definition byte_string (l : list Z) : string :=
  Coq.Strings.String.string_of_list_ascii (map (fun z => Coq.Strings.Ascii.ascii_of_N (Z.to_N z)) l).
Definition string_bytes (s : string) : list Z :=
  map (fun a => Z.of_N (Coq.Strings.Ascii.N_of_ascii a)) (Coq.Strings.String.list_ascii_of_string s).

Notation "x <- e ; f" := (match e with Some x => f | None => None end)
  (at level 61, e at next level, right associativity).

(** ** Reading: [None] is an access outside the buffer, or a panic *)

(** [Table::vtable]: the table starts with the signed distance back to its vtable. *)
Definition vtable (b : list Z) (t : nat) : option nat :=
  v <- get 4 b t;
  let x := (Z.of_nat t - signed 4 v)%Z in
  if (0 <=? x)%Z then Some (Z.to_nat x) else None.

(** [VTable::get], [Table::get]: where field [i] of the table at [t] is; [Some None]: absent. *)
Definition slot (b : list Z) (t i : nat) : option (option nat) :=
  vt <- vtable b t;
  len <- get 2 b vt;
  if (Z.of_nat (6 + 2 * i) <=? len)%Z then
    o <- get 2 b (vt + (4 + 2 * i));
    Some (if (o =? 0)%Z then None else Some (t + Z.to_nat o))
  else Some None.

(** [ForwardsUOffset::follow]. *)
Definition follow (b : list Z) (p : nat) : option nat :=
  o <- get 4 b p; Some (p + Z.to_nat o).

(** A scalar field with default 0, and a field that is an offset to something. *)
Definition scalar (n : nat) (b : list Z) (t i : nat) : option Z :=
  s <- slot b t i; match s with None => Some 0%Z | Some p => get n b p end.
Definition pointer {A : Type} (d : list Z -> nat -> option A) (b : list Z) (t i : nat) : option (option A) :=
  s <- slot b t i;
  match s with None => Some None | Some p => q <- follow b p; v <- d b q; Some (Some v) end.

Definition text (b : list Z) (p : nat) : option string :=
  len <- get 4 b p;
  if p + 4 + Z.to_nat len <=? length b
  then Some (byte_string (firstn (Z.to_nat len) (skipn (p + 4) b))) else None.
Fixpoint all {A : Type} (l : list (option A)) : option (list A) :=
  match l with [] => Some [] | x :: r => v <- x; w <- all r; Some (v :: w) end.
Definition vector {A : Type} (d : list Z -> nat -> option A) (b : list Z) (p : nat) : option (list A) :=
  len <- get 4 b p;
  all (map (fun k => q <- follow b (p + 4 + 4 * k); d b q) (seq 0 (Z.to_nat len))).

(** primitive.fbs:76-91. *)
Definition kinds : list fbkind :=
  [KU8; KU16; KU32; KU64; KI8; KI16; KI32; KI64; KBool; KF32; KF64; KString; KObjectHandle; KContractDataHandle].
Definition kind_of_byte (v : Z) : fbkind :=
  if ((0 <=? signed 1 v) && (signed 1 v <? 14))%Z%bool then nth (Z.to_nat v) kinds (KOther 0) else KOther (signed 1 v).
Definition kinds_at (b : list Z) (p : nat) : option (list fbkind) :=
  len <- get 4 b p;
  all (map (fun k => v <- get 1 b (p + 4 + k); Some (kind_of_byte v)) (seq 0 (Z.to_nat len))).

(** contract.fbs:12-17, 20-23, 7-10. *)
Definition read_cid (b : list Z) (t : nat) : option fb_cid :=
  n <- pointer text b t 0;
  v1 <- scalar 2 b t 1; v2 <- scalar 2 b t 2; v3 <- scalar 2 b t 3;
  Some (mkFbCid n (Z.to_N v1, Z.to_N v2, Z.to_N v3)).
Definition read_cstates (b : list Z) (t : nat) : option fb_cstates :=
  n <- pointer (vector text) b t 0; k <- pointer kinds_at b t 1; Some (mkFbCstates n k).
Definition read_contract (b : list Z) (t : nat) : option fb_contract :=
  i <- pointer read_cid b t 0; s <- pointer read_cstates b t 1; Some (mkFbContract i s).

(** contract.fbs:25-28, object.fbs:11-14, state.fbs: an index. *)
Definition read_idx (n : nat) (b : list Z) (t : nat) : option N :=
  v <- scalar n b t 0; Some (Z.to_N v).
Definition read_object (b : list Z) (t : nat) : option fb_object :=
  c <- pointer (read_idx 2) b t 0; s <- pointer (vector (read_idx 4)) b t 1; Some (mkFbObject c s).

(** primitive.fbs:8-55, one of the tables of the union; state.fbs:6-8.  The tag of the union
    is field 0, its table field 1. *)
Definition union_value {A : Type} (d : list Z -> nat -> option A) (b : list Z) (t : nat) : option A :=
  o <- pointer d b t 1; o.
Definition num (n : nat) (b : list Z) (t : nat) : option Z := scalar n b t 0.
Definition inum (n : nat) (b : list Z) (t : nat) : option Z := v <- scalar n b t 0; Some (signed n v).
Definition fb_text (b : list Z) (t : nat) : option (option string) := pointer text b t 0.
Definition read_state (b : list Z) (t : nat) : option fbval :=
  tag <- scalar 1 b t 0;
  match tag with
  | 0 => Some FNone
  | 1 => v <- union_value (num 1) b t; Some (FU8 v)
  | 2 => v <- union_value (num 2) b t; Some (FU16 v)
  | 3 => v <- union_value (num 4) b t; Some (FU32 v)
  | 4 => v <- union_value (num 8) b t; Some (FU64 v)
  | 5 => v <- union_value (inum 1) b t; Some (FI8 v)
  | 6 => v <- union_value (inum 2) b t; Some (FI16 v)
  | 7 => v <- union_value (inum 4) b t; Some (FI32 v)
  | 8 => v <- union_value (inum 8) b t; Some (FI64 v)
  | 9 => v <- union_value (num 1) b t; Some (FBool (negb (v =? 0)))
  | 10 => v <- union_value (num 4) b t; Some (FF32 v)
  | 11 => v <- union_value (num 8) b t; Some (FF64 v)
  | 12 => v <- union_value fb_text b t; Some (FFbString v)
  | 13 => v <- union_value (read_idx 4) b t; Some (FObjectHandle v)
  | 14 => v <- union_value (read_idx 2) b t; Some (FContractDataHandle v)
  | n => Some (FOther n)
  end%Z.

(** baseline.fbs:7-11. *)
Definition read_baseline (b : list Z) (t : nat) : option fb_baseline :=
  c <- pointer (vector read_contract) b t 0;
  s <- pointer (vector read_state) b t 1;
  o <- pointer (vector read_object) b t 2;
  Some (mkFb c s o).
(** [root_unchecked]. *)
Definition read_root (b : list Z) : option fb_baseline := t <- follow b 0; read_baseline b t.

(** ** Checking: [Verifier].  The state: tables visited, bytes looked at ("apparent size") *)
Definition vstate := (Z * Z)%type.
Definition max_tables : Z := 1000000.
Definition max_size : Z := 2 ^ 31.

Section Verify.
Variable b : list Z.

(** [range_in_buffer], [in_buffer::<T>] with [T] of [n] bytes. *)
Definition ver_range (n p : nat) (s : vstate) : option vstate :=
  if p + n <=? length b then
    let size := (snd s + Z.of_nat n)%Z in
    if (size <=? max_size)%Z then Some (fst s, size) else None
  else None.
Definition ver_in (n p : nat) (s : vstate) : option vstate :=
  if Nat.eqb (p mod n) 0 then ver_range n p s else None.

(** [deref_soffset] and [visit_table]: the vtable and its length. *)
Definition ver_open (t : nat) (s : vstate) : option (nat * nat * vstate) :=
  s <- ver_in 4 t s;
  vt <- vtable b t;
  if vt <? length b then
    s <- ver_in 2 vt s;
    len <- get 2 b vt;
    let len := Z.to_nat len in
    if Nat.eqb ((vt + len) mod 2) 0 then
      s <- ver_range len vt s;
      let n := (fst s + 1)%Z in
      if (n <=? max_tables)%Z then Some (vt, len, (n, snd s)) else None
    else None
  else None.

(** [TableVerifier::deref]. *)
Definition ver_slot (vt len t i : nat) (s : vstate) : option (option nat * vstate) :=
  if 4 + 2 * i <? len then
    s <- ver_in 2 (vt + (4 + 2 * i)) s;
    o <- get 2 b (vt + (4 + 2 * i));
    Some (if (o =? 0)%Z then None else Some (t + Z.to_nat o), s)
  else Some (None, s).

(** [visit_field] of an optional field; [ForwardsUOffset::run_verifier]. *)
Definition ver_field (run : nat -> vstate -> option vstate) (vt len t i : nat) (s : vstate) : option vstate :=
  r <- ver_slot vt len t i s;
  match r with (None, s) => Some s | (Some p, s) => run p s end.
Definition ver_off (run : nat -> vstate -> option vstate) (p : nat) (s : vstate) : option vstate :=
  s <- ver_in 4 p s; q <- follow b p; run q s.

(** [verify_vector_range], strings, vectors of bytes, vectors of offsets. *)
Definition ver_len (size p : nat) (s : vstate) : option (nat * vstate) :=
  s <- ver_in 4 p s;
  len <- get 4 b p;
  if Nat.eqb ((p + 4) mod size) 0 then
    s <- ver_range (Z.to_nat len * size) (p + 4) s; Some (Z.to_nat len, s)
  else None.
Definition ver_text (p : nat) (s : vstate) : option vstate :=
  r <- ver_len 1 p s;
  let '(len, s) := r in
  if valid_utf8 (firstn len (skipn (p + 4) b)) then
    match nth_error b (p + 4 + len) with
    | Some 0%Z => Some s
    | _ => None
    end
  else None.
Definition ver_bytes (p : nat) (s : vstate) : option vstate := r <- ver_len 1 p s; Some (snd r).
Fixpoint ver_each (run : nat -> vstate -> option vstate) (k p : nat) (s : vstate) : option vstate :=
  match k with O => Some s | S k => s <- ver_off run p s; ver_each run k (p + 4) s end.
Definition ver_vector (run : nat -> vstate -> option vstate) (p : nat) (s : vstate) : option vstate :=
  r <- ver_len 4 p s; let '(len, s) := r in ver_each run len (p + 4) s.

(** The generated [run_verifier] of each table. *)
Definition ver_cid (t : nat) (s : vstate) : option vstate :=
  r <- ver_open t s; let '(vt, len, s) := r in
  s <- ver_field (ver_off ver_text) vt len t 0 s;
  s <- ver_field (ver_in 2) vt len t 1 s;
  s <- ver_field (ver_in 2) vt len t 2 s;
  ver_field (ver_in 2) vt len t 3 s.
Definition ver_cstates (t : nat) (s : vstate) : option vstate :=
  r <- ver_open t s; let '(vt, len, s) := r in
  s <- ver_field (ver_off (ver_vector ver_text)) vt len t 0 s;
  ver_field (ver_off ver_bytes) vt len t 1 s.
Definition ver_contract (t : nat) (s : vstate) : option vstate :=
  r <- ver_open t s; let '(vt, len, s) := r in
  s <- ver_field (ver_off ver_cid) vt len t 0 s;
  ver_field (ver_off ver_cstates) vt len t 1 s.
(** A table with one scalar of [n] bytes. *)
Definition ver_num (n t : nat) (s : vstate) : option vstate :=
  r <- ver_open t s; let '(vt, len, s) := r in ver_field (ver_in n) vt len t 0 s.
Definition ver_fb_text (t : nat) (s : vstate) : option vstate :=
  r <- ver_open t s; let '(vt, len, s) := r in ver_field (ver_off ver_text) vt len t 0 s.
Definition ver_object (t : nat) (s : vstate) : option vstate :=
  r <- ver_open t s; let '(vt, len, s) := r in
  s <- ver_field (ver_off (ver_num 2)) vt len t 0 s;
  ver_field (ver_off (ver_vector (ver_num 4))) vt len t 1 s.

(** [visit_union]: both the tag and the value, or neither; the value of an unknown tag is
    not looked at. *)
Definition ver_union (tag : Z) (p : nat) (s : vstate) : option vstate :=
  match tag with
  | 1 | 5 | 9 => ver_off (ver_num 1) p s
  | 2 | 6 | 14 => ver_off (ver_num 2) p s
  | 3 | 7 | 10 | 13 => ver_off (ver_num 4) p s
  | 4 | 8 | 11 => ver_off (ver_num 8) p s
  | 12 => ver_off ver_fb_text p s
  | _ => Some s
  end%Z.
Definition ver_state (t : nat) (s : vstate) : option vstate :=
  r <- ver_open t s; let '(vt, len, s) := r in
  v <- ver_slot vt len t 1 s; let '(val, s) := v in
  k <- ver_slot vt len t 0 s; let '(key, s) := k in
  match key, val with
  | None, None => Some s
  | Some k, Some v => s <- ver_in 1 k s; tag <- get 1 b k; ver_union tag v s
  | _, _ => None
  end.
Definition ver_baseline (t : nat) (s : vstate) : option vstate :=
  r <- ver_open t s; let '(vt, len, s) := r in
  s <- ver_field (ver_off (ver_vector ver_contract)) vt len t 0 s;
  s <- ver_field (ver_off (ver_vector ver_state)) vt len t 1 s;
  ver_field (ver_off (ver_vector ver_object)) vt len t 2 s.

(** [root]: [Some _] if the buffer is accepted.  It does not look at the file identifier. *)
Definition verify : option vstate := ver_off ver_baseline 0 (0%Z, 0%Z).
End Verify.

(** deserializer/new/mod.rs:75-78: [None] is an error. *)
Definition load (b : list Z) : option (option fb_baseline) :=
  match verify b with Some _ => Some (read_root b) | None => None end.

(** ** Writing: [FlatBufferBuilder].  The buffer grows at the front; a place is named by
    its distance from the end. *)
Record build : Type := mkBuild {
  bu : list Z;                      (* the bytes so far *)
  vts : list (list Z * nat);        (* vtables written, and where *)
  ma : nat                          (* [min_align] *)
}.
Definition used (b : build) : nat := length (bu b).

(** [align(len, a)]: zeros, such that [len] more bytes end at a multiple of [a]. *)
Definition align (len a : nat) (b : build) : build :=
  mkBuild (repeat 0%Z ((a - (used b + len) mod a) mod a) ++ bu b) (vts b) (Nat.max (ma b) a).
Definition prepend (l : list Z) (b : build) : build := mkBuild (l ++ bu b) (vts b) (ma b).

Inductive fval : Type := FScalar (n : nat) (v : Z) | FOff (o : nat).
(** [push]. *)
Definition push (x : fval) (b : build) : build :=
  match x with
  | FScalar n v => prepend (put n v) (align n n b)
  | FOff o => let b := align 4 4 b in prepend (put 4 (Z.of_nat (used b + 4 - o))) b
  end.

(** [create_string]; [create_vector] of bytes; [create_vector], [create_vector_from_iter] of
    offsets. *)
Definition create_bytes (l : list Z) (b : build) : nat * build :=
  let b := push (FScalar 4 (Z.of_nat (length l))) (prepend l (align (length l) 4 b)) in (used b, b).
Definition create_string (s : string) (b : build) : nat * build :=
  let l := string_bytes s in
  let b := push (FScalar 4 (Z.of_nat (length l))) (prepend (l ++ [0%Z]) (align (length l + 1) 4 b)) in (used b, b).
Definition create_vector (l : list nat) (b : build) : nat * build :=
  let b := push (FScalar 4 (Z.of_nat (length l))) (fold_right (fun o b => push (FOff o) b) (align (4 * length l) 4 b) l) in
  (used b, b).

(** [start_table], the [add_...] functions in the order of the generated [create] (larger
    fields first, the last declared first), [end_table]. *)
Fixpoint push_fields (l : list (nat * fval)) (b : build) : list (nat * nat) * build :=
  match l with
  | [] => ([], b)
  | (i, x) :: r => let b := push x b in
                   let '(locs, b') := push_fields r b in ((i, used b) :: locs, b')
  end.
Definition loc (i : nat) (locs : list (nat * nat)) : option nat :=
  option_map snd (find (fun p => Nat.eqb (fst p) i) locs).
Definition vtable_bytes (locs : list (nat * nat)) (tail t : nat) : list Z :=
  let n := fold_right (fun p m => Nat.max (S (fst p)) m) 0 locs in
  put 2 (Z.of_nat (4 + 2 * n)) ++ put 2 (Z.of_nat (t - tail)) ++
  flat_map (fun i => put 2 (match loc i locs with Some o => Z.of_nat (t - o) | None => 0%Z end)) (seq 0 n).
Definition bytes_eqb (a b : list Z) : bool := if list_eq_dec Z.eq_dec a b then true else false.
Definition create_table (l : list (nat * fval)) (b : build) : nat * build :=
  let tail := used b in
  let '(locs, b) := push_fields l b in
  let b := align 4 4 b in
  let t := used b + 4 in
  let vt := vtable_bytes locs tail t in
  match find (fun p => bytes_eqb (fst p) vt) (vts b) with
  | Some (_, v) => (t, mkBuild (put 4 (Z.of_nat v - Z.of_nat t) ++ bu b) (vts b) (ma b))
  | None => let v := t + length vt in
            (t, mkBuild (vt ++ put 4 (Z.of_nat v - Z.of_nat t) ++ bu b) ((vt, v) :: vts b) (ma b))
  end.

(** [finish] with the file identifier (lib.rs:58): the finished bytes. *)
Definition prefix : list Z := [84; 80; 70; 49]%Z.
Definition finish (root : nat) (b : build) : list Z :=
  bu (push (FOff root) (prepend prefix (align 8 (ma b) b))).

(** A field that is not written if it is 0 ([push_slot] with default 0). *)
Definition opt (i n : nat) (v : Z) : list (nat * fval) := if (v =? 0)%Z then [] else [(i, FScalar n v)].

(** serializer/mod.rs:157-169, 170-197, 198-205 *)
Definition w_contract (name : string) (ver : N * N * N) (names : list string) (ks : list Z) (b : build) : nat * build :=
  let '(v1, v2, v3) := ver in
  let '(n, b) := create_string name b in
  let '(cid, b) := create_table ((0, FOff n) :: opt 3 2 (Z.of_N v3) ++ opt 2 2 (Z.of_N v2) ++ opt 1 2 (Z.of_N v1)) b in
  let '(os, b) := fold_left (fun a s => let '(l, b) := a in let '(o, b) := create_string s b in (l ++ [o], b)) names ([], b) in
  let '(nv, b) := create_vector os b in
  let '(kv, b) := create_bytes ks b in
  let '(cs, b) := create_table [(1, FOff kv); (0, FOff nv)] b in
  create_table [(1, FOff cs); (0, FOff cid)] b.

(** serializer/mod.rs:75-104, 226-240: the table of a value, and the state with its tag. *)
Definition tag_byte (v : fbval) : Z :=
  match v with
  | FNone => 0 | FU8 _ => 1 | FU16 _ => 2 | FU32 _ => 3 | FU64 _ => 4 | FI8 _ => 5 | FI16 _ => 6 | FI32 _ => 7
  | FI64 _ => 8 | FBool _ => 9 | FF32 _ => 10 | FF64 _ => 11 | FFbString _ => 12 | FObjectHandle _ => 13
  | FContractDataHandle _ => 14 | FOther n => n
  end%Z.
Definition w_value (v : fbval) (b : build) : nat * build :=
  match v with
  | FU8 v | FI8 v => create_table (opt 0 1 v) b
  | FU16 v | FI16 v => create_table (opt 0 2 v) b
  | FU32 v | FI32 v => create_table (opt 0 4 v) b
  | FU64 v | FI64 v => create_table (opt 0 8 v) b
  | FBool v => create_table (if v then [(0, FScalar 1 1%Z)] else []) b
  | FF32 v => create_table (if f32_eqb v 0 then [] else [(0, FScalar 4 v)]) b
  | FF64 v => create_table (if f64_eqb v 0 then [] else [(0, FScalar 8 v)]) b
  | FFbString (Some s) => let '(o, b) := create_string s b in create_table [(0, FOff o)] b
  | FObjectHandle i => create_table (opt 0 4 (Z.of_N i)) b
  | FContractDataHandle i => create_table (opt 0 2 (Z.of_N i)) b
  | FFbString None | FNone | FOther _ => create_table [] b       (* not written by the serializer *)
  end.
Definition w_state (v : fbval) (b : build) : nat * build :=
  let '(p, b) := w_value v b in
  create_table ((1, FOff p) :: opt 0 1 (tag_byte v)) b.
(** serializer/mod.rs:130-131 and 55-58 *)
Definition w_state_handle (i : N) (b : build) : nat * build := create_table (opt 0 4 (Z.of_N i)) b.
Definition w_contract_handle (i : N) (b : build) : nat * build := create_table (opt 0 2 (Z.of_N i)) b.
(** serializer/mod.rs:135-142 *)
Definition w_object (contract : nat) (states : list nat) (b : build) : nat * build :=
  let '(v, b) := create_vector states b in
  create_table [(1, FOff v); (0, FOff contract)] b.
(** serializer/mod.rs:255-271 *)
Definition w_finish (contracts states objects : list nat) (b : build) : list Z :=
  let '(c, b) := create_vector contracts b in
  let '(s, b) := create_vector states b in
  let '(o, b) := create_vector objects b in
  let '(r, b) := create_table [(2, FOff o); (1, FOff s); (0, FOff c)] b in
  finish r b.
