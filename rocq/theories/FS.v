(** A file system, as far as save and load use it (os.path.exists, os.mkdir, os.listdir,
    shutil.rmtree, np.save, np.load).  Not a piece of /repo.
    Simplifications: paths are strings compared literally (no normalisation of "a//b" or "..",
    no links); permissions, disk space and concurrent processes are not modelled; a file being
    written when the process dies is unreadable ([CBad]). *)
From Coq Require Import ZArith List Bool String Ascii.
From Verif Require Import Num Py.
Import ListNotations.
Set Implicit Arguments.
Local Open Scope string_scope.

(** the two components of a diagnostics key "({y}, {x})" (GridDiagnostics.py:96): an int, or a
    bool, which is printed as True / False; the printed string determines the components *)
Inductive kcomp := KInt (z : Z) | KBool (b : bool).
Definition dkey : Type := kcomp * kcomp.

Section FS.
Context {T : Type}.

(** content of a .npy file: an array, a pickled dictionary of arrays, another pickled
    object, or unreadable bytes *)
Inductive content :=
  | CNpy (dtype : string) (shape : list nat) (elems : list (scal T))
  | CDict (d : list (dkey * list (scal T)))
  | CPickle                        (* any other pickled object *)
  | CBad.
Inductive node := NDir | NFile (c : content).
Definition fs := list (string * node).

Fixpoint fs_get (f : fs) (p : string) : option node :=
  match f with [] => None | (q, n) :: f => if String.eqb p q then Some n else fs_get f p end.
(** os.path.exists *)
Definition fs_exists (f : fs) (p : string) : bool := match fs_get f p with Some _ => true | None => false end.
Definition fs_isdir (f : fs) (p : string) : bool := match fs_get f p with Some NDir => true | _ => false end.

(** directory part of a path; None: no slash, the path is in the working directory *)
Fixpoint parent (p : string) : option string :=
  match p with
  | EmptyString => None
  | String c r =>
    match parent r with
    | Some q => Some (String c q)
    | None => if Ascii.eqb c "/" then Some EmptyString else None
    end
  end.
(** the directory of [p] exists (the working directory, also named ".", and "/" always do) *)
Definition parent_ok (f : fs) (p : string) : bool :=
  match parent p with None | Some EmptyString => true | Some d => String.eqb d "." || fs_isdir f d end.

(** [p] is [d] or lies below it *)
Definition below (d p : string) : bool := String.eqb p d || String.prefix (d ++ "/") p.

(** one effect of a program on the file system *)
Inductive step :=
  | SMkdir (p : string)            (* os.mkdir *)
  | SMkdirIf (p : string)          (* if not os.path.exists(p): os.mkdir(p) *)
  | SWrite (p : string) (c : content)  (* np.save; [p] includes the suffix .npy *)
  | SRmtree (p : string)           (* if os.path.exists(p): shutil.rmtree(p); [p] not a regular file *)
  | SRmSome (p : string) (keep : string -> bool)  (* part of an rmtree: only appears in crashes *)
  | SRaise (e : exn).              (* an exception raised between two effects *)

Definition fs_mkdir (f : fs) (p : string) : fs * res unit :=
  if String.eqb p "" then (f, Err FileNotFound)
  else if fs_exists f p then (f, Err FileExists)
  else if parent_ok f p then ((p, NDir) :: f, Ok tt) else (f, Err FileNotFound).

Definition exec (f : fs) (s : step) : fs * res unit :=
  match s with
  | SMkdir p => fs_mkdir f p
  | SMkdirIf p => if fs_exists f p then (f, Ok tt) else fs_mkdir f p
  | SWrite p c =>
    if fs_isdir f p then (f, Err FileExists)
    else if parent_ok f p then ((p, NFile c) :: f, Ok tt) else (f, Err FileNotFound)
  | SRmtree p => (filter (fun qn => negb (below p (fst qn))) f, Ok tt)
  | SRmSome p keep => (filter (fun qn => negb (below p (fst qn)) || keep (fst qn)) f, Ok tt)
  | SRaise e => (f, Err e)
  end.

Fixpoint run (f : fs) (l : list step) : fs * res unit :=
  match l with
  | [] => (f, Ok tt)
  | s :: l => match exec f s with (f', Ok _) => run f' l | r => r end
  end.

(** what a step cut off in the middle does: a file is left unreadable, a directory half removed *)
Inductive torn : step -> step -> Prop :=
  | tn_write p c : torn (SWrite p c) (SWrite p CBad)
  | tn_rmtree p keep : torn (SRmtree p) (SRmSome p keep).

(** the file systems a dying process may leave behind when it executes [l]: any number of
    complete steps, then possibly one cut off in the middle *)
Inductive crash (f : fs) (l : list step) : fs -> Prop :=
  | cr_clean k : crash f l (fst (run f (firstn k l)))
  | cr_torn k s s' : nth_error l k = Some s -> torn s s' ->
      crash f l (fst (run f (firstn k l ++ [s']))).

(** np.load: only arrays unless pickles are allowed *)
Definition np_load (f : fs) (p : string) : res (string * list nat * list (scal T)) :=
  match fs_get f p with
  | Some (NFile (CNpy d sh el)) => Ok (d, sh, el)
  | Some (NFile _) => Err ValueError
  | _ => Err FileNotFound
  end.
Definition np_load_dict (f : fs) (p : string) : res (list (dkey * list (scal T))) :=
  match fs_get f p with
  | Some (NFile (CDict d)) => Ok d
  | Some (NFile _) => Err ValueError
  | _ => Err FileNotFound
  end.

(** os.path.join with "/", as the f-strings of save and load build paths *)
Definition under (d name : string) : string := d ++ "/" ++ name.

(** os.listdir: names of the entries directly below [d] *)
Definition listdir (f : fs) (d : string) : list string :=
  nodup string_dec
    (flat_map (fun qn =>
       match parent (fst qn) with
       | Some q => if String.eqb q d
                   then [String.substring (S (String.length d)) (String.length (fst qn)) (fst qn)] else []
       | None => []
       end) f).
End FS.
Arguments content : clear implicits.
Arguments node : clear implicits.
Arguments fs : clear implicits.
Arguments step : clear implicits.
