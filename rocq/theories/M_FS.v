(** Go's package path, and the file system the service works on. *)
From Coq Require Import List String Ascii Bool ZArith Arith.
From Verif Require Import BaseStr BaseMap M_Types.
Import ListNotations.
Local Open Scope string_scope.

(** ** path.Clean and path.Join *)

(** Whether a path is absolute, as path.Clean tests (path/path.go:77). *)
Definition is_rooted (p : string) : bool := has_prefix "/" p.

(** One element of a path met by path.Clean: empty elements and dots are dropped, dot-dot drops the
    element before it, or is itself dropped at the root and kept at the start of an unrooted path.
    The elements so far, last first. *)
Definition push (rooted : bool) (acc : list string) (c : string) : list string :=
  if String.eqb c "" || String.eqb c "." then acc
  else if String.eqb c ".." then
    match acc with
    | [] => if rooted then [] else [".."]
    | d :: acc' => if String.eqb d ".." then ".." :: acc else acc'
    end
  else c :: acc.

(** path.Clean (Go 1.21, path/path.go:72-133), on the elements instead of the bytes. *)
Definition path_Clean (p : string) : string :=
  let l := rev (fold_left (push (is_rooted p)) (split "/" p) []) in
  if is_rooted p then "/" ++ join "/" l
  else match l with [] => "." | _ => join "/" l end.

(** path.Join (path/path.go:157-173) *)
Definition path_Join (l : list string) : string :=
  match filter (fun e => negb (String.eqb e "")) l with
  | [] => ""
  | l' => path_Clean (join "/" l')
  end.

(** ** File trees *)

(** What the operating system keeps: files with some content, directories with named entries.  No
    symbolic links, permissions or times. *)
Inductive tree (C : Type) := File (c : C) | Dir (entries : list (string * tree C)).
Arguments File {C} c.
Arguments Dir {C} entries.

(** Where a path leads from the current directory, as the list of names from the root. *)
Definition locate (cwd : list string) (p : string) : list string :=
  rev (fold_left (push true) (split "/" p) (if is_rooted p then [] else rev cwd)).

Section FS.
  Context {C : Type}.

  Definition mremove {V} (k : string) (m : list (string * V)) : list (string * V) :=
    filter (fun kv => negb (String.eqb (fst kv) k)) m.

  Fixpoint get (p : list string) (t : tree C) : option (tree C) :=
    match p with
    | [] => Some t
    | k :: r => match t with
                | File _ => None
                | Dir es => match mlookup k es with Some t' => get r t' | None => None end
                end
    end.

  (** Put something at a place whose directory exists, or remove what is there. *)
  Fixpoint put (p : list string) (x : option (tree C)) (t : tree C) : option (tree C) :=
    match p with
    | [] => x
    | k :: r =>
        match t with
        | File _ => None
        | Dir es =>
            match r with
            | [] => Some (Dir (match x with Some t' => minsert k t' es | None => mremove k es end))
            | _ => match mlookup k es with
                   | None => None
                   | Some t' => match put r x t' with
                                | Some t'' => Some (Dir (minsert k t'' es))
                                | None => None
                                end
                   end
            end
        end
    end.

  (** A file where a directory is needed. *)
  Fixpoint through_file (p : list string) (t : tree C) : bool :=
    match p, t with
    | [], _ => false
    | _ :: _, File _ => true
    | k :: r, Dir es => match mlookup k es with Some t' => through_file r t' | None => false end
    end.

  (** os.Mkdir *)
  Definition mkdir (p : list string) (t : tree C) : option (tree C) :=
    match get p t with
    | Some _ => None
    | None => put p (Some (Dir [])) t
    end.

  (** os.MkdirAll *)
  Fixpoint mkdir_all (p : list string) (t : tree C) : option (tree C) :=
    match t with
    | File _ => None
    | Dir es =>
        match p with
        | [] => Some t
        | k :: r =>
            match mkdir_all r (match mlookup k es with Some t' => t' | None => Dir [] end) with
            | Some t' => Some (Dir (minsert k t' es))
            | None => None
            end
        end
    end.

  (** os.RemoveAll: nothing to do if there is nothing there. *)
  Definition remove_all (p : list string) (t : tree C) : option (tree C) :=
    if through_file p t then None
    else match get p t with
         | None => Some t
         | Some _ => put p None t
         end.

  (** os.Create: an empty file. *)
  Definition create (empty : C) (p : list string) (t : tree C) : option (tree C) :=
    match get p t with
    | Some (Dir _) => None
    | _ => put p (Some (File empty)) t
    end.

  (** Writing to an open file. *)
  Definition write (p : list string) (c : C) (t : tree C) : option (tree C) :=
    match get p t with
    | Some (File _) => put p (Some (File c)) t
    | _ => None
    end.

  Fixpoint is_prefix (p q : list string) : bool :=
    match p, q with
    | [], _ => true
    | a :: p', b :: q' => String.eqb a b && is_prefix p' q'
    | _ :: _, [] => false
    end.

  (** os.Rename (rename(2)): not into itself; a file replaces a file, a directory an empty one. *)
  Definition rename (src dst : list string) (t : tree C) : option (tree C) :=
    match get src t with
    | None => None
    | Some x =>
        if is_prefix src dst then (if is_prefix dst src then Some t else None)
        else
          let fits := match x, get dst t with
                      | _, None => true
                      | File _, Some (File _) => true
                      | Dir _, Some (Dir []) => true
                      | _, _ => false
                      end in
          if fits then
            match put dst (Some x) t with
            | None => None
            | Some t' => put src None t'
            end
          else None
    end.
End FS.
