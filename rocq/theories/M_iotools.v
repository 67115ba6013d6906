(** Model of dataio/iotools.py. File-system effects are lists of atomic operations, so that a crash is a prefix. *)
From Coq Require Import String Ascii.
From Verif Require Import Prelude.
Local Open Scope Z_scope.

(** str.rfind of one character: last index, -1 when absent. *)
Fixpoint rfind_from (c : ascii) (l : list ascii) (i best : Z) : Z :=
  match l with
  | [] => best
  | x :: r => rfind_from c r (i + 1) (if Ascii.eqb x c then i else best)
  end.
Definition rfind (c : ascii) (l : list ascii) : Z := rfind_from c l 0 (-1).
Definition chars (s : string) : list ascii := list_ascii_of_string s.
Definition text (l : list ascii) : string := string_of_list_ascii l.

(** os.path.splitext (posix): split at the last dot after the last slash, unless only dots precede it in the file name. *)
Definition splitext (p : string) : string * string :=
  let l := chars p in
  let sep := rfind "/" l in
  let dot := rfind "." l in
  if (sep <? dot) && existsb (fun c => negb (Ascii.eqb c ".")) (firstn (Z.to_nat dot - Z.to_nat (sep + 1)) (skipn (Z.to_nat (sep + 1)) l))
  then (text (firstn (Z.to_nat dot) l), text (skipn (Z.to_nat dot) l))
  else (p, EmptyString).
(** os.path.split(u)[-1]: what follows the last slash. *)
Definition basename (p : string) : string := let l := chars p in text (skipn (Z.to_nat (rfind "/" l + 1)) l).

(** iotools.py:80-113 getfiles. [listing] is os.listdir(path): entry names in any order. *)
Definition getfiles (listing : list string) (ext : option string) (sort : bool) : list string :=
  let files := match ext with
               | Some e => filter (fun fn => String.eqb (snd (splitext fn)) e) listing
               | None => listing
               end in
  if sort then sort_by String.leb files else files.

(** Python whitespace among ASCII characters. *)
Definition is_space (c : ascii) : bool :=
  let n := nat_of_ascii c in
  ((9 <=? n) && (n <=? 13) || (28 <=? n) && (n <=? 32))%nat.
(** str.split(): maximal runs of non-space characters. *)
Fixpoint words_from (l : list ascii) (word : list ascii) : list (list ascii) :=
  match l with
  | [] => match word with [] => [] | _ => [rev word] end
  | c :: r => if is_space c then match word with [] => words_from r [] | _ => rev word :: words_from r [] end
              else words_from r (c :: word)
  end.
(** iotools.py:49-51 row.split()[-1].strip(); a blank row raises IndexError. *)
Definition row_url (row : string) : result string :=
  match rev (words_from (chars row) []) with
  | [] => Err IndexError
  | w :: _ => Ok (text w)
  end.

(** A directory: file name -> blocks written so far. Simplification: no sub-directories; the directory exists. *)
Section Web.
  Context {B : Type}.
  Definition dir : Type := list (string * list B).
  Inductive fsop : Type := Create (name : string) | Append (name : string) (block : B).
  Definition apply_op (fs : dir) (o : fsop) : dir :=
    match o with
    | Create n => dset fs n []
    | Append n b => dset fs n (match dget fs n with Some l => l ++ [b] | None => [b] end)
    end.
  Definition apply_ops (ops : list fsop) (fs : dir) : dir := fold_left apply_op ops fs.

  (** What a URL serves: nothing (the request fails), or blocks, which end early (false) if the connection breaks. *)
  Definition web : Type := string -> option (list B * bool).
  (** iotools.py:6-23 download = urllib.request.urlretrieve: open the URL, create the file, write block by block; raises if the
      connection breaks, leaving what was written. *)
  Definition download (w : web) (url filename : string) : list fsop * result unit :=
    match w url with
    | None => ([], Err OtherError)
    | Some (blocks, complete) => (Create filename :: map (Append filename) blocks, if complete then Ok tt else Err OtherError)
    end.
  (** iotools.py:26-61 wget_fromurl: the operations performed and the outcome. Simplifications: the script itself arrives complete,
      as ASCII lines; an empty file name cannot be opened for writing. *)
  Fixpoint wget_fromurl (w : web) (rows : list string) (fs : dir) : list fsop * result unit :=
    match rows with
    | [] => ([], Ok tt)
    | row :: rest =>
      match row_url row with
      | Err e => ([], Err e)
      | Ok u =>
        let fn := basename u in
        if dmem fs fn then wget_fromurl w rest fs
        else if String.eqb fn EmptyString then ([], Err OtherError)
        else
          let (ops, r) := download w u fn in
          match r with
          | Err e => (ops, Err e)
          | Ok _ => let (ops', r') := wget_fromurl w rest (apply_ops ops fs) in (ops ++ ops', r')
          end
      end
    end.
End Web.
