(** Executables: hermespy/core/executable.py (cited by line as exe) and hermespy/core/definitions.py (def).
    Simplifications: a path is the list of its components and an experiment's name one without separators; a file system maps paths to files and directories and knows no permissions or links;
    the errors of the operating system are [None]; the date does not change during a call. *)
From Coq Require Import DecimalString Decimal.
From Coq Require Import String List Arith Bool.
From Verif Require Import Base.
Import ListNotations.
Local Open Scope nat_scope.

(** * File systems (os.path.exists, isdir, mkdir, makedirs) *)
Definition path := list string.
Inductive kind := File | Directory.
Definition filesystem := list (path * kind).
Definition path_eqb (a b : path) : bool := if list_eq_dec string_dec a b then true else false.
Definition kind_of (fs : filesystem) (p : path) : option kind := option_map snd (find (fun q => path_eqb (fst q) p) fs).
Definition exists_at (fs : filesystem) (p : path) : bool := match kind_of fs p with Some _ => true | None => false end.
Definition is_dir (fs : filesystem) (p : path) : bool := match kind_of fs p with Some Directory => true | _ => false end.
Definition mkdir (fs : filesystem) (p : path) : option filesystem := if exists_at fs p then None else Some ((p, Directory) :: fs).
(** makedirs(path, exist_ok=True): all ancestors and the path itself *)
Definition makedirs (fs : filesystem) (p : path) : option filesystem :=
  fold_left (fun acc k => match acc with
                          | None => None
                          | Some fs => let q := firstn k p in match kind_of fs q with Some Directory => Some fs | Some File => None | None => Some ((q, Directory) :: fs) end
                          end) (seq 1 (length p)) (Some fs).

(** * Results directories, exe 166-214 *)
(** "{:03d}".format(index) *)
Definition decimal (n : nat) : string := NilEmpty.string_of_uint (Nat.to_uint n).
Definition three_digits (n : nat) : string :=
  let s := decimal n in if String.length s <? 3 then (String.concat "" (repeat "0"%string (3 - String.length s)) ++ s)%string else s.
(** exe 206, 209 *)
Definition dated (today : string) (index : nat) : string := (today ++ "_" ++ three_digits index)%string.
(** exe 188-191 *)
Definition base_directory (cwd : path) (experiment : option string) : path := cwd ++ ["results"%string] ++ match experiment with Some e => [e] | None => [] end.
(** exe 207-209; the loop is bounded by the number of paths, see the proofs *)
Fixpoint search (fs : filesystem) (base : path) (today : string) (fuel index : nat) : option nat :=
  match fuel with
  | 0 => None
  | S fuel => if exists_at fs (base ++ [dated today index]) then search fs base today fuel (S index) else Some index
  end.
Definition default_results_dir (fs : filesystem) (cwd : path) (today : string) (experiment : option string) (overwrite : bool) : option (path * filesystem) :=
  let base := base_directory cwd experiment in
  match makedirs fs base with
  | None => None
  | Some fs1 =>
      if overwrite then Some (base, fs1)
      else match search fs1 base today (S (length fs1)) 0 with
           | None => None
           | Some index => match mkdir fs1 (base ++ [dated today index]) with Some fs2 => Some (base ++ [dated today index], fs2) | None => None end
           end
  end.
(** exe 107-128: the setter of the results directory *)
Definition set_results_dir (fs : filesystem) (directory : option path) : result (option path) :=
  match directory with
  | None => Ok None
  | Some p => if negb (exists_at fs p) then Raise ValueError else if negb (is_dir fs p) then Raise ValueError else Ok (Some p)
  end.

(** What happens to a file system: calls, whose results are collected, and other programs creating files *)
Inductive event := Call (cwd : path) (today : string) (experiment : option string) | Create (p : path) (k : kind).
Fixpoint collect (fs : filesystem) (events : list event) : list path * filesystem :=
  match events with
  | [] => ([], fs)
  | Call cwd today experiment :: r =>
      match default_results_dir fs cwd today experiment false with
      | Some (p, fs') => let (l, f) := collect fs' r in (p :: l, f)
      | None => collect fs r
      end
  | Create p k :: r => collect (if exists_at fs p then fs else (p, k) :: fs) r
  end.

(** Several processes run the loop (exe 204-212) at the same time in the same base directory; looking at a path and creating a directory are atomic.
    A process whose directory was created by another one in between gets an exception from mkdir *)
Inductive process := Searching (index : nat) | Creating (index : nat) | Done (index : nat) | Failed.
Definition turn (base : path) (today : string) (fs : filesystem) (q : process) : filesystem * process :=
  match q with
  | Searching i => if exists_at fs (base ++ [dated today i]) then (fs, Searching (S i)) else (fs, Creating i)
  | Creating i => match mkdir fs (base ++ [dated today i]) with Some fs' => (fs', Done i) | None => (fs, Failed) end
  | Done i => (fs, Done i)
  | Failed => (fs, Failed)
  end.
Fixpoint replace_nth {A} (k : nat) (x : A) (l : list A) : list A := match l, k with [], _ => [] | _ :: r, 0 => x :: r | y :: r, S k => y :: replace_nth k x r end.
Fixpoint schedule (base : path) (today : string) (fs : filesystem) (processes : list process) (turns : list nat) : filesystem * list process :=
  match turns with
  | [] => (fs, processes)
  | k :: r => match nth_error processes k with
              | Some q => let (fs', q') := turn base today fs q in schedule base today fs' (replace_nth k q' processes) r
              | None => schedule base today fs processes r
              end
  end.

(** * Styles, exe 38, 216-268 *)
(** The class attribute and the attribute of the instance that hides it *)
Record styles := mkStyles { s_class : string; s_instance : option string }.
Definition new_styles : styles := mkStyles "dark" None.
Definition style (s : styles) : string := match s_instance s with Some x => x | None => s_class s end.
Definition set_style (available : list string) (s : styles) (value : string) : result styles :=
  if existsb (String.eqb value) available then Ok (mkStyles (s_class s) (Some value)) else Raise ValueError.
(** exe 254-268: the style plots are drawn in *)
Definition context_style (s : styles) : string := s_class s.

(** * Verbosities and exceptions *)
(** def 28-44 *)
Inductive verbosity := ALL | INFO | WARNING | ERROR | NONE.
Definition value (v : verbosity) : nat := match v with ALL => 0 | INFO => 1 | WARNING => 2 | ERROR => 3 | NONE => 4 end.
Definition verbosity_of (name : string) : result verbosity :=
  if String.eqb name "ALL" then Ok ALL else if String.eqb name "INFO" then Ok INFO else if String.eqb name "WARNING" then Ok WARNING
  else if String.eqb name "ERROR" then Ok ERROR else if String.eqb name "NONE" then Ok NONE else Raise KeyError.
(** str.upper for letters without diacritics *)
Definition upper_char (c : Ascii.ascii) : Ascii.ascii := let n := Ascii.nat_of_ascii c in if (97 <=? n) && (n <=? 122) then Ascii.ascii_of_nat (n - 32) else c.
Fixpoint upper (s : string) : string := match s with EmptyString => EmptyString | String c r => String (upper_char c) (upper r) end.
(** exe 75 and 140-153 *)
Definition constructed_verbosity (name : string) : result verbosity := verbosity_of name.
Definition set_verbosity (name : string) : result verbosity := verbosity_of (upper name).
(** def 15-25 and exe 309-342: what is done about an exception.  The console's answer decides whether to go on *)
Inductive console_mode := INTERACTIVE | LINEAR | SILENT.
Definition is_silent (m : console_mode) : bool := match m with SILENT => true | _ => false end.
Inductive handling := Reraised | Ignored | Printed | Exited.
Definition handle (debug : bool) (v : verbosity) (m : console_mode) (force confirm answer : bool) : handling :=
  if debug then Reraised
  else if ((value v <? value NONE) && negb (is_silent m)) || force
       then (if confirm then (if answer then Printed else Exited) else Printed)
       else Ignored.
