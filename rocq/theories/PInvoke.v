(** client/codegen_pinvoke/Main.cs: the program that runs CppSharp over the three
    native crates.  Here: where it finds the project, what it deletes, copies and
    writes.  On Unix (path separator "/", no drive letters).

    The file system is a list of files with their paths; a directory exists if a file
    is in it (empty directories are not modelled).  CppSharp is a parameter: what it
    writes to the output directory, given the files it sees. *)
From Verif Require Export Handlebars.
Import Coq.Strings.String.StringSyntax.
Open Scope string_scope.
Open Scope list_scope.
Open Scope nat_scope.

(** From the root; [[]] is the root. *)
Definition path := list str.
Definition fs := list (path * str).

Fixpoint path_eqb (a b : path) : bool :=
  match a, b with
  | [], [] => true
  | x :: a', y :: b' => (str_eqb x y && path_eqb a' b')%bool
  | _, _ => false
  end.

Fixpoint read (p : path) (f : fs) : option str :=
  match f with
  | [] => None
  | (q, v) :: r => if path_eqb p q then Some v else read p r
  end.

(** Creating a file or replacing its text. *)
Fixpoint write (p : path) (v : str) (f : fs) : fs :=
  match f with
  | [] => [(p, v)]
  | (q, w) :: r => if path_eqb p q then (p, v) :: r else (q, w) :: write p v r
  end.

Fixpoint under (d p : path) : bool :=
  match d, p with
  | [], _ => true
  | x :: d', y :: p' => (str_eqb x y && under d' p')%bool
  | _ :: _, [] => false
  end.

(** [DirectoryInfo.Parent ?? Root] and [DirectoryInfo.Name]. *)
Definition parent (p : path) : path := removelast p.
Definition name (p : path) : str := last p [].

(** Main.cs:215-243 [GetProjectDir], from the path of the running assembly. *)
Definition project_dir (assembly : path) : path :=
  let p := parent (parent (parent (parent (parent assembly)))) in
  let p := if str_eqb (name p) (lit "client") then p else parent p in
  parent p.

(** Main.cs:57-80: output directory and crate of each library. *)
Definition libs (root : path) : list (path * str) :=
  [ (root ++ map lit ["client"; "cs"; "src"; "generated"; "cpp_sharp"], lit "tp_client");
    (root ++ map lit ["demos"; "unity_states"; "cs"; "src"; "generated"; "cpp_sharp"], lit "unity_states");
    (root ++ map lit ["client"; "contract_example"; "cs"; "src"; "generated"; "cpp_sharp"],
     lit "tp_contract_example") ].
Definition artifacts (root : path) : path := root ++ map lit ["target"; "debug"].

(** A path as text. *)
Definition slash : N := 47.
Definition dot : N := 46.
Definition show_path (p : path) : str := flat_map (fun c => slash :: c) p.

(** [s.Split(sep)], and a relative path made of its parts. *)
Fixpoint split (sep : N) (s : str) : list str :=
  match s with
  | [] => [[]]
  | c :: r => if N.eqb c sep then [] :: split sep r
              else match split sep r with
                   | w :: ws => (c :: w) :: ws
                   | [] => [[c]]
                   end
  end.

(** Main.cs:145 [Regex.IsMatch]: the pattern is not anchored and runs over the path. *)
Definition extensions : list str := map lit ["so"; "a"; "dylib"; "dll"].
Fixpoint occurs (part s : str) : bool :=
  match strip_prefix part s with
  | Some _ => true
  | None => match s with [] => false | _ :: r => occurs part r end
  end.
Definition matches (crate : str) (p : path) : bool :=
  existsb (fun e => occurs (crate ++ dot :: e) (show_path p)) extensions.

(** Main.cs:146 [Directory.GetFiles] (in some order: that of the list).  It throws if there is
    no such directory; target/debug is taken to exist. *)
Definition files_of (d : path) (f : fs) : list path :=
  filter (fun p => (under d p && Nat.eqb (length p) (S (length d)))%bool) (map fst f).
Definition dir_exists (d : path) (f : fs) : bool := existsb (fun e => under d (fst e)) f.

(** Main.cs:152-166: one matching file; [None]: [File.Copy] throws. *)
Definition copy_one (art : path) (crate target : str) (file : path) (f : fs) : option fs :=
  let ext := nth 1 (split dot (show_path file)) [] in
  let prefix := if str_eqb ext (lit "dll") then [] else lit "lib" in
  let at_ n := art ++ split slash (prefix ++ n ++ dot :: ext) in
  match read (at_ crate) f with
  | Some v => if dir_exists (parent (at_ target)) f then Some (write (at_ target) v f) else None
  | None => None
  end.

Fixpoint copy_all (art : path) (crate target : str) (l : list path) (f : fs) : bool * fs :=
  match l with
  | [] => (true, f)
  | p :: r => match copy_one art crate target p f with
              | Some f' => copy_all art crate target r f'
              | None => (false, f)
              end
  end.

(** Main.cs:142-168, the part of [Setup] that touches files. *)
Definition setup (root : path) (crate target : str) (f : fs) : bool * fs :=
  if str_eqb crate target then (true, f)
  else copy_all (artifacts root) crate target (filter (matches crate) (files_of (artifacts root) f)) f.

(** What CppSharp writes for a crate, relative to the output directory. *)
Definition generator := str -> fs -> list (path * str).
Fixpoint emit (out : path) (l : list (path * str)) (f : fs) : fs :=
  match l with
  | [] => f
  | (p, v) :: r => emit out r (write (out ++ p) v f)
  end.

(** Main.cs:83-105, one turn: the output directory is deleted, then the library is
    set up and CppSharp runs. *)
Definition run_lib (root : path) (target : str) (cpp : generator) (l : path * str) (f : fs) : bool * fs :=
  let f := filter (fun e => negb (under (fst l) (fst e))) f in
  let '(ok, f) := setup root (snd l) target f in
  if ok then (true, emit (fst l) (cpp (snd l) f) f) else (false, f).

Fixpoint run_libs (root : path) (target : str) (cpp : generator) (ls : list (path * str)) (f : fs) : bool * fs :=
  match ls with
  | [] => (true, f)
  | l :: r => let '(ok, f) := run_lib root target cpp l f in
              if ok then run_libs root target cpp r f else (false, f)
  end.

(** Main.cs:45-108: [Some 0], [Some 1] for the code -1, [None] for an exception.
    [args]: their number; [over]: the environment variable, if set. *)
Definition main (assembly : path) (args : nat) (over : option str) (cpp : generator) (f : fs) : option nat * fs :=
  match args with
  | S _ => (Some 1, f)
  | O =>
      let root := project_dir assembly in
      let target := match over with Some n => n | None => lit "unity_states" end in
      let '(ok, f) := run_libs root target cpp (libs root) f in
      (if ok then Some 0 else None, f)
  end.
