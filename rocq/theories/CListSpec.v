(** What a C program that owns each thing once should observe: plain lists.  The
    left side of the comparison ([plain]) knows nothing of pointers; the right side
    ([client]) is the C program, written with the exported functions only. *)
From Verif Require Export CList.

(** ** Plain data *)
Inductive thing : Type :=
| Value (v : dynprim)                         (* an owned value of a primitive type *)
| Key (k : keyframe)                          (* an owned keyframe *)
| Keys (t : prim) (ks : list keyframe)        (* an owned list of keyframes *)
| Chan (t : prim) (ks : list keyframe).       (* an owned channel *)
Definition store : Type := nat -> option thing.
Definition set {A} (s : nat -> option A) (x : nat) (o : option A) : nat -> option A :=
  fun z => if z =? x then o else s z.

(** Statements of the program; [x], [y] are its variables. *)
Inductive stmt : Type :=
| SValue (x : nat) (v : dynprim)              (* x = a box of v *)
| SKey (x y : nat) (time : Z)                 (* x = Keyframe__new(y, time) *)
| SKeys (x : nat) (t : prim)                  (* x = RVec__new() *)
| SPush (x y : nat)                           (* RVec__push(&x, y) *)
| SAssign (x i y : nat)                       (* RVec__set(&x, i, y) *)
| SChan (x y : nat)                           (* x = Channel__new(y) *)
| SFree (x : nat)                             (* the type's drop function *)
| ShowValue (x : nat)
| ShowKey (x : nat)                           (* value and time *)
| ShowLen (x : nat)
| ShowAt (x i : nat)                          (* RVec__get, then value and time *)
| ShowChan (mut : bool) (x : nat).            (* Channel__keyframes(_mut), then all of them *)
Inductive obs : Type :=
| OValue (v : dynprim) | OKey (v : dynprim) (time : Z) | OLen (n : nat) | OKeys (l : list (dynprim * Z)).

Definition key_type (k : keyframe) : ptype := prop_type (k_value k).
Definition shown (k : keyframe) : option (dynprim * Z) :=
  match k_value k with PPrim v => Some (v, k_time k) | PVec _ => None end.
Fixpoint shown_all (ks : list keyframe) : option (list (dynprim * Z)) :=
  match ks with
  | [] => Some []
  | k :: t => match shown k, shown_all t with Some a, Some b => Some (a :: b) | _, _ => None end
  end.

(** One statement: [Goes] with an observation, [Stops] (the process aborts), or
    [Misuse]: the program is not one that owns each thing once (a variable is used
    that does not hold such a thing, or is overwritten while it holds something). *)
Inductive reply (A : Type) : Type := Goes (o : option obs) (a : A) | Stops | Misuse.
Arguments Goes {A}. Arguments Stops {A}. Arguments Misuse {A}.

Definition plain (srt : list keyframe -> list keyframe) (s : store) (c : stmt) : reply store :=
  match c with
  | SValue x v =>
      match s x with None => Goes None (set s x (Some (Value v))) | _ => Misuse end
  | SKey x y time =>
      match s y, set s y None x with
      | Some (Value v), None => Goes None (set (set s y None) x (Some (Key (mkKey (PPrim v) time))))
      | _, _ => Misuse
      end
  | SKeys x t =>
      match s x with None => Goes None (set s x (Some (Keys t []))) | _ => Misuse end
  | SPush x y =>
      match s x, s y with
      | Some (Keys t ks), Some (Key k) =>
          if ptype_eqb (key_type k) (TPrim t)
          then Goes None (set (set s y None) x (Some (Keys t (ks ++ [k])))) else Misuse
      | _, _ => Misuse
      end
  | SAssign x i y =>
      match s x, s y with
      | Some (Keys t ks), Some (Key k) =>
          if ptype_eqb (key_type k) (TPrim t) then
            if i <? length ks then Goes None (set (set s y None) x (Some (Keys t (firstn i ks ++ k :: skipn (S i) ks))))
            else Stops
          else Misuse
      | _, _ => Misuse
      end
  | SChan x y =>
      match s y, set s y None x with
      | Some (Keys t ks), None => Goes None (set (set s y None) x (Some (Chan t (srt ks))))
      | _, _ => Misuse
      end
  | SFree x => match s x with Some _ => Goes None (set s x None) | None => Misuse end
  | ShowValue x => match s x with Some (Value v) => Goes (Some (OValue v)) s | _ => Misuse end
  | ShowKey x =>
      match s x with
      | Some (Key k) => match shown k with Some (v, t) => Goes (Some (OKey v t)) s | None => Misuse end
      | _ => Misuse
      end
  | ShowLen x => match s x with Some (Keys _ ks) => Goes (Some (OLen (length ks))) s | _ => Misuse end
  | ShowAt x i =>
      match s x with
      | Some (Keys _ ks) =>
          match nth_error ks i with
          | Some k => match shown k with Some (v, t) => Goes (Some (OKey v t)) s | None => Misuse end
          | None => Stops
          end
      | _ => Misuse
      end
  | ShowChan _ x =>
      match s x with
      | Some (Chan _ ks) => match shown_all ks with Some l => Goes (Some (OKeys l)) s | None => Misuse end
      | _ => Misuse
      end
  end.

(** ** The C program *)
Inductive handle : Type :=
| HVal (t : prim) (p : ptr) | HKey (t : prim) (p : ptr) | HVec (v : cvec) | HChan (t : prim) (p : ptr).
Definition env : Type := nat -> option handle.
Inductive effect (A : Type) : Type := Ran (a : A) | Aborted | Undefined.
Arguments Ran {A}. Arguments Aborted {A}. Arguments Undefined {A}.

Definition call_ptr (srt : list keyframe -> list keyframe) (H : heap) (c : call) : effect (ptr * heap) :=
  match step srt H c with
  | Done (RPtr p) H' => Ran (p, H') | Abort => Aborted | _ => Undefined
  end.
(** [Keyframe__value], read through the pointer, and [Keyframe__time]. *)
Definition read_key (srt : list keyframe -> list keyframe) (H : heap) (t : prim) (p : ptr) : effect (dynprim * Z * heap) :=
  match step srt H (Keyframe__value t p) with
  | Done (RPtr q) H1 =>
      match step srt H1 (Load q) with
      | Done (RVal v) H2 =>
          match step srt H2 (Keyframe__time t p) with
          | Done (RTime z) H3 => Ran (v, z, H3) | Abort => Aborted | _ => Undefined
          end
      | Abort => Aborted | _ => Undefined
      end
  | Abort => Aborted | _ => Undefined
  end.
(** A loop over the array of pointers, from element [i], [n] times. *)
Fixpoint read_refs (srt : list keyframe -> list keyframe) (H : heap) (t : prim) (r : option nat) (i n : nat)
  : effect (list (dynprim * Z) * heap) :=
  match n with
  | O => Ran ([], H)
  | S m =>
      match call_ptr srt H (Load_ref r i) with
      | Ran (p, H1) =>
          match read_key srt H1 t p with
          | Ran (v, z, H2) =>
              match read_refs srt H2 t r (S i) m with
              | Ran (l, H3) => Ran ((v, z) :: l, H3) | Aborted => Aborted | Undefined => Undefined
              end
          | Aborted => Aborted | Undefined => Undefined
          end
      | Aborted => Aborted | Undefined => Undefined
      end
  end.

Definition prim_of (v : dynprim) : prim := primitive_type (dynprim_type v).
Definition client (srt : list keyframe -> list keyframe) (E : env) (H : heap) (c : stmt)
  : effect (option obs * env * heap) :=
  match c with
  | SValue x v =>
      match call_ptr srt H (Box__new v) with
      | Ran (p, H') => Ran (None, set E x (Some (HVal (prim_of v) p)), H')
      | Aborted => Aborted | Undefined => Undefined
      end
  | SKey x y time =>
      match E y with
      | Some (HVal t q) =>
          match call_ptr srt H (Keyframe__new t q time) with
          | Ran (p, H') => Ran (None, set (set E y None) x (Some (HKey t p)), H')
          | Aborted => Aborted | Undefined => Undefined
          end
      | _ => Undefined
      end
  | SKeys x t =>
      match step srt H (RVec__new t) with
      | Done (RVec v) H' => Ran (None, set E x (Some (HVec v)), H')
      | Abort => Aborted | _ => Undefined
      end
  | SPush x y =>
      match E x, E y with
      | Some (HVec v), Some (HKey _ p) =>
          match step srt H (RVec__push v p) with
          | Done (RVec v') H' => Ran (None, set (set E y None) x (Some (HVec v')), H')
          | Abort => Aborted | _ => Undefined
          end
      | _, _ => Undefined
      end
  | SAssign x i y =>
      match E x, E y with
      | Some (HVec v), Some (HKey _ p) =>
          match step srt H (RVec__set v i p) with
          | Done RUnit H' => Ran (None, set E y None, H')
          | Abort => Aborted | _ => Undefined
          end
      | _, _ => Undefined
      end
  | SChan x y =>
      match E y with
      | Some (HVec v) =>
          match call_ptr srt H (Channel__new v) with
          | Ran (p, H') => Ran (None, set (set E y None) x (Some (HChan (v_ty v) p)), H')
          | Aborted => Aborted | Undefined => Undefined
          end
      | _ => Undefined
      end
  | SFree x =>
      match match E x with
            | Some (HVal _ p) => step srt H (Box__drop p)
            | Some (HKey t p) => step srt H (Keyframe__drop t p)
            | Some (HVec v) => step srt H (RVec__drop v)
            | Some (HChan t p) => step srt H (Channel__drop t p)
            | None => UB
            end with
      | Done RUnit H' => Ran (None, set E x None, H')
      | Abort => Aborted | _ => Undefined
      end
  | ShowValue x =>
      match E x with
      | Some (HVal _ p) =>
          match step srt H (Load p) with
          | Done (RVal v) H' => Ran (Some (OValue v), E, H')
          | Abort => Aborted | _ => Undefined
          end
      | _ => Undefined
      end
  | ShowKey x =>
      match E x with
      | Some (HKey t p) =>
          match read_key srt H t p with
          | Ran (v, z, H') => Ran (Some (OKey v z), E, H')
          | Aborted => Aborted | Undefined => Undefined
          end
      | _ => Undefined
      end
  | ShowLen x =>
      match E x with
      | Some (HVec v) => Ran (Some (OLen (v_len v)), E, H)     (* a field of the struct *)
      | _ => Undefined
      end
  | ShowAt x i =>
      match E x with
      | Some (HVec v) =>
          match call_ptr srt H (RVec__get v i) with
          | Ran (p, H1) =>
              match read_key srt H1 (v_ty v) p with
              | Ran (w, z, H') => Ran (Some (OKey w z), E, H')
              | Aborted => Aborted | Undefined => Undefined
              end
          | Aborted => Aborted | Undefined => Undefined
          end
      | _ => Undefined
      end
  | ShowChan mut x =>
      match E x with
      | Some (HChan t p) =>
          match step srt H (if mut then Channel__keyframes_mut t p else Channel__keyframes t p) with
          | Done (RRefs r n) H1 =>
              match read_refs srt H1 t r 0 n with
              | Ran (l, H') => Ran (Some (OKeys l), E, H')
              | Aborted => Aborted | Undefined => Undefined
              end
          | Abort => Aborted | _ => Undefined
          end
      | _ => Undefined
      end
  end.

(** ** Whole programs *)
(** The observations made, and how the program ended. *)
Inductive ending (A : Type) : Type := Finished (a : A) | Crashed | Invalid.
Arguments Finished {A}. Arguments Crashed {A}. Arguments Invalid {A}.
Definition note (o : option obs) (l : list obs) : list obs := match o with Some x => x :: l | None => l end.

Fixpoint plain_run (srt : list keyframe -> list keyframe) (s : store) (p : list stmt) : list obs * ending store :=
  match p with
  | [] => ([], Finished s)
  | c :: p' =>
      match plain srt s c with
      | Goes o s' => let '(l, e) := plain_run srt s' p' in (note o l, e)
      | Stops => ([], Crashed)
      | Misuse => ([], Invalid)
      end
  end.
Fixpoint client_run (srt : list keyframe -> list keyframe) (E : env) (H : heap) (p : list stmt)
  : list obs * ending (env * heap) :=
  match p with
  | [] => ([], Finished (E, H))
  | c :: p' =>
      match client srt E H c with
      | Ran (o, E', H') => let '(l, e) := client_run srt E' H' p' in (note o l, e)
      | Aborted => ([], Crashed)
      | Undefined => ([], Invalid)
      end
  end.
Definition nothing {A} : nat -> option A := fun _ => None.

(** What Rust promises of the sort ([sort_unstable_by_rel], Channel.v). *)
Definition sorts (srt : list keyframe -> list keyframe) : Prop :=
  forall ks, sort_unstable_by_rel key_cmp ks (srt ks).
