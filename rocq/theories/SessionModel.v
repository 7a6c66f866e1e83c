(** Model of dmpbbo/bbo/LearningSession.py (class LearningSession, without plotting).

    Objects live in a heap (address -> value) so that aliasing between the session's cache and the
    caller is visible. A value stands for a whole object graph; copy.deepcopy allocates a fresh
    address with the same value. [V] is the type of values. *)
From Coq Require Import String Ascii NArith.
From Verif Require Import Base.
Open Scope string_scope.

(** ** Decimal formatting: f"{i:03d}", f"{i:05d}" *)
Definition digit (n : N) : string := String (ascii_of_N (48 + n)) "".

(** the [w] last decimal digits of n, most significant first *)
Fixpoint fixd (w : nat) (n : N) : string :=
  match w with
  | O => ""
  | S w' => fixd w' (n / 10)%N ++ digit (n mod 10)%N
  end.

(** number of decimal digits of n (at least 1); the binary logarithm of n is sufficient fuel *)
Fixpoint ndig_go (fuel : nat) (n : N) : nat :=
  match fuel with
  | O => 1
  | S f => if (n <? 10)%N then 1 else S (ndig_go f (n / 10)%N)
  end.
Definition ndig (n : N) : nat := ndig_go (S (N.to_nat (N.log2 n))) n.

(** Python's format(z, "0{w}d"): zero-padded to width w, the sign counts *)
Definition fmt (w : nat) (z : Z) : string :=
  match z with
  | Zneg p => "-" ++ fixd (Nat.max (w - 1) (ndig (Npos p))) (Npos p)
  | _ => fixd (Nat.max w (ndig (Z.to_N z))) (Z.to_N z)
  end.

(** ** LearningSession.py:312-338, get_base_name *)

(** Index arguments: None (or another falsy object), a Python int, a numpy integer (which is NOT
    an instance of int), or a non-empty string such as "eval". *)
Inductive idx := INone | IInt (z : Z) | INp (z : Z) | IStr (s : string).

(** Keys of the cache: get_base_name returns a str, or a pathlib.Path when i_update is an int.
    A str and a Path are never equal as dictionary keys. *)
Inductive key := KStr (s : string) | KPath (s : string).
Definition key_eqb (a b : key) : bool :=
  match a, b with
  | KStr s, KStr t => String.eqb s t
  | KPath s, KPath t => String.eqb s t
  | _, _ => false
  end.
(** the file name (relative to the root directory) of a key *)
Definition path (k : key) : string := match k with KStr s => s | KPath s => s end.

(** l.327-332 *)
Definition sample_name (name : string) (i_sample : idx) : string :=
  match i_sample with
  | IInt z => fmt 3 z ++ "_" ++ name
  | INp z => if (z =? 0)%Z then name else fmt 0 z ++ "_" ++ name
  | IStr s => s ++ "_" ++ name
  | INone => name
  end.

(** l.334-338. Simplification: pathlib's normalisation (of empty names, ".", repeated or leading
    slashes) is not modelled; names are assumed to be plain file names. *)
Definition get_base_name (name : string) (i_update i_sample : idx) : key :=
  let basename := sample_name name i_sample in
  match i_update with
  | IInt z => KPath ("update" ++ fmt 5 z ++ "/" ++ basename)
  | _ => KStr basename
  end.

(** directory part of a path, if any: everything before the last "/" *)
Definition update_dir (i_update : idx) : option string :=
  match i_update with IInt z => Some ("update" ++ fmt 5 z) | _ => None end.

(** ** Files *)
Inductive ext := Json | Txt | Csv.
Definition ext_eqb (a b : ext) : bool :=
  match a, b with Json, Json | Txt, Txt | Csv, Csv => true | _, _ => false end.

Section Session.
Variable V : Type.
(** LearningSession.save, l.422-430: the file type chosen from the type of the object *)
Variable category : V -> ext.
(** the object obtained by loading a file of the given type into which the object was saved *)
Variable load : ext -> V -> V.
(** Python ints as values, and int(np.atleast_1d(x)[0]) (l.267-268) *)
Variable of_int : Z -> V.
Variable to_int : V -> option Z.

Definition file : Type := string * ext * V.
(** [d_dirs] lists the sub-directories created so far, oldest first *)
Record disk := Disk { d_files : list file; d_dirs : list string }.
Definition empty_disk : disk := Disk [] [].

Fixpoint find_file (fs : list file) (p : string) (e : ext) : option V :=
  match fs with
  | [] => None
  | (p', e', v) :: fs' => if (String.eqb p p' && ext_eqb e e')%bool then Some v else find_file fs' p e
  end.

Definition str_mem (s : string) (l : list string) : bool := existsb (String.eqb s) l.

(** l.408-432, save: os.makedirs, then write one file. Simplification: encoding never fails. *)
Definition save (v : V) (d : disk) (dir : option string) (p : string) : disk :=
  let dirs := match dir with
              | Some s => if str_mem s (d_dirs d) then d_dirs d else (d_dirs d ++ [s])%list
              | None => d_dirs d
              end in
  Disk ((p, category v, v) :: d_files d) dirs.

(** the root_directory argument: None, the empty string, or a proper directory name. The code
    tests both [self._root_dir is not None] and [not self._root_dir]. *)
Inductive rootdir := RNone | REmpty | RDir.
Definition not_none (r : rootdir) : bool := match r with RNone => false | _ => true end.
Definition truthy (r : rootdir) : bool := match r with RDir => true | _ => false end.

(** The object state (l.240-243), and the world around it. [w_owned] are the addresses of objects
    the caller holds a reference to. *)
Record sess := Sess { s_n : Z; s_root : rootdir; s_cache : list (key * nat * option string);
                      s_last : option Z }.
Record world := World { w_heap : list V; w_disk : disk; w_owned : list nat }.

Fixpoint cache_get (c : list (key * nat * option string)) (k : key) : option nat :=
  match c with
  | [] => None
  | (k', a, _) :: c' => if key_eqb k k' then Some a else cache_get c' k
  end.
(** dictionary assignment: keeps the position of an existing key, otherwise appends *)
Fixpoint cache_set (c : list (key * nat * option string)) (k : key) (a : nat) (dir : option string)
  : list (key * nat * option string) :=
  match c with
  | [] => [(k, a, dir)]
  | (k', a', dir') :: c' =>
    if key_eqb k k' then (k', a, dir') :: c' else (k', a', dir') :: cache_set c' k a dir
  end.

(** l.395-406, tell. [v] is the value of the object at the time of the call. *)
Definition tell (w : world) (s : sess) (v : V) (name : string) (iu is : idx) : world * sess :=
  let k := get_base_name name iu is in
  let s' := Sess (s_n s) (s_root s)
                 (cache_set (s_cache s) k (length (w_heap w)) (update_dir iu)) (s_last s) in
  let disk' := if not_none (s_root s) then save v (w_disk w) (update_dir iu) (path k)
               else w_disk w in
  (World (w_heap w ++ [v]) disk' (w_owned w), s').

(** l.340-356, exists *)
Definition exists_ (w : world) (s : sess) (name : string) (iu is : idx) : bool :=
  let k := get_base_name name iu is in
  match cache_get (s_cache s) k with
  | Some _ => true
  | None =>
    if not_none (s_root s) then
      let has e := match find_file (d_files (w_disk w)) (path k) e with
                   | Some _ => true | None => false end in
      has Json || has Txt || has Csv
    else false
  end.

(** l.377-389: the loaded object *)
Definition load_file (d : disk) (p : string) : res V :=
  match find_file (d_files d) p Json with
  | Some v => Ok (load Json v)
  | None =>
    match find_file (d_files d) p Csv with
    | Some v => Ok (load Csv v)
    | None =>
      match find_file (d_files d) p Txt with
      | Some v => Ok (load Txt v)
      | None => Err IOError
      end
    end
  end.

(** l.358-393, ask: returns the address of the returned object. On a cache hit this is a fresh
    copy; on the first load from a file it is the very object put in the cache. *)
Definition ask (w : world) (s : sess) (name : string) (iu is : idx) : world * sess * res nat :=
  let k := get_base_name name iu is in
  let fresh := length (w_heap w) in
  match cache_get (s_cache s) k with
  | Some a =>
    match nth_error (w_heap w) a with
    | Some v => (World (w_heap w ++ [v]) (w_disk w) (fresh :: w_owned w), s, Ok fresh)
    | None => (w, s, Err Unmodelled) (* dangling address: unreachable *)
    end
  | None =>
    if negb (truthy (s_root s)) then (w, s, Err KeyError)
    else
      match load_file (w_disk w) (path k) with
      | Ok v => (World (w_heap w ++ [v]) (w_disk w) (fresh :: w_owned w),
                 Sess (s_n s) (s_root s) (cache_set (s_cache s) k fresh (update_dir iu)) (s_last s),
                 Ok fresh)
      | Err e => (w, s, Err e)
      end
  end.

(** l.238-248, constructor (kwargs: names and values). The source-code dump of l.250-257 writes a
    .py file, which no other method reads; it is not modelled. *)
Definition new_session (w : world) (n : Z) (r : rootdir) (kwargs : list (string * V)) : world * sess :=
  let '(w1, s1) := tell w (Sess n r [] None) (of_int n) "n_samples_per_update" INone INone in
  fold_left (fun ws nv => tell (fst ws) (snd ws) (snd nv) (fst nv) INone INone) kwargs (w1, s1).

(** l.259-269, from_dir *)
Definition from_dir (w : world) : res (world * sess) :=
  match find_file (d_files (w_disk w)) "n_samples_per_update" Txt with
  | None => Err FileNotFoundError
  | Some v =>
    match to_int (load Txt v) with
    | Some n => Ok (new_session w n RDir [])
    | None => Err ValueError
    end
  end.

(** l.434-440, save_all into the directory [d] *)
Definition save_all (w : world) (s : sess) (d : disk) : disk :=
  fold_left (fun d (e : key * nat * option string) =>
    let '(k, a, dir) := e in
    match nth_error (w_heap w) a with
    | Some v => save v d dir (path k)
    | None => d (* dangling address: unreachable *)
    end) (s_cache s) d.

(** l.271-279 *)
Definition add_eval (w : world) (s : sess) (i : Z) (eval_sample eval_cost : V) : world * sess :=
  let '(w1, s1) := tell w s eval_cost "eval_cost" (IInt i) INone in
  tell w1 s1 eval_sample "eval_sample" (IInt i) INone.

(** l.281-297 *)
Definition add_update (w : world) (s : sess) (i : Z) (distribution samples costs weights : V)
    (distribution_new : option V) : world * sess :=
  let '(w1, s1) := tell w s distribution "distribution" (IInt i) INone in
  let '(w2, s2) := tell w1 s1 samples "samples" (IInt i) INone in
  let '(w3, s3) := tell w2 s2 costs "costs" (IInt i) INone in
  let '(w4, s4) := tell w3 s3 weights "weights" (IInt i) INone in
  let '(w5, s5) := match distribution_new with
                   | Some dn => tell w4 s4 dn "distribution_new" (IInt i) INone
                   | None => (w4, s4)
                   end in
  (w5, Sess (s_n s5) (s_root s5) (s_cache s5) (Some i)).

(** *** l.299-310, get_n_updates *)
Definition is_digit (c : ascii) : bool :=
  let n := N_of_ascii c in ((48 <=? n) && (n <=? 57))%N.
(** the part of the name after "update", if the glob pattern update[0-9]* matches *)
Definition glob_suffix (dir : string) : option string :=
  if String.prefix "update" dir then
    match String.substring 6 (String.length dir - 6) dir with
    | String c r => if is_digit c then Some (String c r) else None
    | EmptyString => None
    end
  else None.
(** Python's int(s) for a string of decimal digits, ValueError otherwise (directories created by
    the session never contain signs, blanks or underscores after "update") *)
Fixpoint parse_go (acc : N) (s : string) : option N :=
  match s with
  | EmptyString => Some acc
  | String c r => if is_digit c then parse_go (acc * 10 + (N_of_ascii c - 48))%N r else None
  end.
Definition parse_int (s : string) : res Z :=
  match s with
  | EmptyString => Err ValueError
  | _ => match parse_go 0 s with Some n => Ok (Z.of_N n) | None => Err ValueError end
  end.
(** the last element of the sorted list of matching names: their maximum in the lexicographic order *)
Definition str_max (a b : string) : string := if String.ltb a b then b else a.
Fixpoint last_sorted (l : list string) : option string :=
  match l with
  | [] => None
  | x :: l' => match last_sorted l' with None => Some x | Some y => Some (str_max x y) end
  end.
Fixpoint filter_some {A B} (f : A -> option B) (l : list A) : list B :=
  match l with
  | [] => []
  | x :: l' => match f x with Some y => y :: filter_some f l' | None => filter_some f l' end
  end.

(** the result None of the in-memory case is Ok None *)
Definition get_n_updates (w : world) (s : sess) : res (option Z) :=
  if negb (truthy (s_root s)) then Ok (s_last s)
  else match last_sorted (filter_some glob_suffix (d_dirs (w_disk w))) with
       | None => Err IndexError
       | Some suffix => let* n := parse_int suffix in Ok (Some n)
       end.

(** ** Histories of calls by a client program *)
Inductive op :=
  | ONew (v : V)                                        (* the caller creates an object *)
  | OMutate (a : nat) (v : V)                           (* the caller modifies an object it holds *)
  | OTell (a : nat) (name : string) (iu is : idx)       (* session.tell(object, name, iu, is) *)
  | OAsk (name : string) (iu is : idx).                 (* session.ask(name, iu, is) *)

(** a caller can only use objects it holds a reference to; other uses change nothing *)
Definition owned (w : world) (a : nat) : bool := existsb (Nat.eqb a) (w_owned w).
Definition step (ws : world * sess) (o : op) : world * sess :=
  let '(w, s) := ws in
  match o with
  | ONew v => (World (w_heap w ++ [v]) (w_disk w) (length (w_heap w) :: w_owned w), s)
  | OMutate a v =>
    if owned w a then (World (set_nth (w_heap w) a v) (w_disk w) (w_owned w), s) else (w, s)
  | OTell a name iu is =>
    match nth_error (w_heap w) a with
    | Some v => if owned w a then tell w s v name iu is else (w, s)
    | None => (w, s)
    end
  | OAsk name iu is => fst (ask w s name iu is)
  end.
Definition run (ws : world * sess) (ops : list op) : world * sess := fold_left step ops ws.

End Session.

Arguments Disk {V}. Arguments World {V}. Arguments w_heap {V}. Arguments w_disk {V}.
Arguments w_owned {V}. Arguments d_files {V}. Arguments d_dirs {V}. Arguments empty_disk {V}.
Arguments find_file {V}. Arguments ONew {V}. Arguments OMutate {V}. Arguments OTell {V}.
Arguments OAsk {V}. Arguments save {V}. Arguments tell {V}. Arguments exists_ {V}.
Arguments load_file {V}. Arguments ask {V}. Arguments new_session {V}. Arguments from_dir {V}.
Arguments save_all {V}. Arguments add_eval {V}. Arguments add_update {V}.
Arguments get_n_updates {V}. Arguments owned {V}. Arguments step {V}. Arguments run {V}.
