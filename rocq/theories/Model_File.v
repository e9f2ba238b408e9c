(** Model_File.v -- files: the WriteFile methods and the readers of files.
    The file system is a map from places to what is there; a name of a file denotes a place.
    Simplified: nobody else changes the files during a call, and of the permissions of a
    file only whether this process can read it is kept. *)
From Coq Require Import ZArith NArith List String Ascii Bool.
From Verif Require Import Base Model_Names Model_Table Model_Heap Model_TableSet Model_Lex Model_Parser Model_Print.
Import ListNotations.
Local Open Scope string_scope.
Local Open Scope list_scope.

Inductive node := Dir | File (readable : bool) (contents : string).
Definition files := string -> option node.

(** What the operating system says: the place that a name denotes, whether a name is absolute
    (filepath.IsAbs), UtilFilepathAbs (util.go:193-221) followed by filepath.ToSlash, and
    whether a file that is created with a mode can be read. *)
Record os := mkOS { place : string -> string; is_abs : string -> bool; abs_path : string -> res string; perm : Z -> bool }.

(** What becomes of a write: the file cannot be opened, or [k] bytes reach it before the disk
    is full or the process dies. *)
Inductive fate := NotOpened | Written (k : nat).

Definition set_file (fs : files) (at_place : string) (n : node) : files :=
  fun p => if p =? at_place then Some n else fs p.

(** ioutil.WriteFile: O_WRONLY|O_CREATE|O_TRUNC, then write.  The mode is used when the file
    is created.  A directory cannot be opened for writing. *)
Definition write_file (O : os) (f : fate) (name data : string) (mode : Z) (fs : files) : files * res unit :=
  let put r k := (set_file fs (place O name) (File r (substring 0 k data)),
                  if Nat.ltb k (String.length data) then Err else Ok tt) in
  match f, fs (place O name) with
  | NotOpened, _ => (fs, Err)
  | _, Some Dir => (fs, Err)
  | Written k, Some (File r _) => put r k
  | Written k, None => put (perm O mode) k
  end.

(** "if mode == 0 { mode = 0666 }", gotables.go:138-141, 158-160 *)
Definition file_mode (mode : Z) : Z := if (mode =? 0)%Z then 438%Z else mode.

(** TableSet.WriteFile, gotables.go:127-145; the receiver None is nil *)
Definition TS_WriteFile (O : os) (ip : Z -> bool) (f : fate) (h : heap) (s : option tset) (name : string) (mode : Z) (fs : files) : files * res unit :=
  match s with
  | None => (fs, Err)
  | Some s =>
      match TS_StringPadded ip h s with
      | Ok data => write_file O f name data (file_mode mode) fs
      | Err => (fs, Err)
      | Panic => (fs, Panic)
      end
  end.

(** Table.WriteFile, gotables.go:148-164 *)
Definition Table_WriteFile (O : os) (ip : Z -> bool) (f : fate) (h : heap) (o : ref) (name : string) (mode : Z) (fs : files) : files * res unit :=
  match o with
  | None => (fs, Err)
  | Some p =>
      match StringPadded ip h (tab h p) with
      | Ok data => write_file O f name data (file_mode mode) fs
      | Err => (fs, Err)
      | Panic => (fs, Panic)
      end
  end.

(** parser.go:620-626: the name that is looked up *)
Definition resolve (O : os) (name : string) : res string := if is_abs O name then abs_path O name else Ok name.

(** parseFile, parser.go:613-651, and NewTableSetFromFile, gotables.go:114-124 *)
Definition NewTableSetFromFile (O : os) (fs : files) (name : string) (h : heap) : heap * res tset :=
  match resolve O name with
  | Err => (h, Err)
  | Panic => (h, Panic)
  | Ok n =>
      match fs (place O n) with
      | None => (h, Err)                               (* os.Stat *)
      | Some Dir => (h, Err)                           (* info.IsDir() *)
      | Some (File false _) => (h, Err)                (* ioutil.ReadFile *)
      | Some (File true data) =>
          let '(h', r) := NewTableSetFromString data h in
          (h', let! s := r in Ok (SetFileName n s))
      end
  end.

(** NewTableFromFile, gotables.go:250-269 *)
Definition NewTableFromFile (O : os) (fs : files) (name : string) (h : heap) : heap * res ref :=
  let '(h, r) := NewTableSetFromFile O fs name h in
  (h, let! ts := r in if negb (TableCount ts =? 1)%Z then Err else GetTableByTableIndex ts 0).

(** NewTableFromFileByTableName, gotables.go:271-283 *)
Definition NewTableFromFileByTableName (O : os) (fs : files) (name n : string) (h : heap) : heap * res ref :=
  let '(h, r) := NewTableSetFromFile O fs name h in (h, let! ts := r in GetTable h ts n).

(** NewTableFromStringMustMake, gotables.go:208-214: an error is a panic *)
Definition NewTableFromStringMustMake (s : string) (h : heap) : heap * res ref :=
  let '(h, r) := NewTableFromString s h in
  (h, match r with Ok o => Ok o | Err => Panic | Panic => Panic end).
