(** Model of shared memory: numpy arrays are buffers, and assignments and getters of the Python code pass
    references to them (views, not copies, for slices and reshaped arrays). A class is described by the
    arrays its objects hold, its methods as functions of the values of these arrays (the models of the
    other files), and, for each method, which array each attribute refers to afterwards. *)
From Verif Require Import Base.

(** ** memory *)
Definition heap := list (list R).
(** a contiguous part of a buffer *)
Record ref := Ref { r_addr : nat; r_off : nat; r_len : nat }.
Definition read (h : heap) (r : ref) : list R := firstn (r_len r) (skipn (r_off r) (nth (r_addr r) h [])).
(** r[off : off + len] *)
Definition view (r : ref) (off len : nat) : ref := Ref (r_addr r) (r_off r + off) len.
(** r[i] = v *)
Definition poke (h : heap) (r : ref) (i : nat) (v : R) : heap :=
  set_nth h (r_addr r) (set_nth (nth (r_addr r) h []) (r_off r + i) v).
(** references as they are, new buffers for the other values *)
Fixpoint place (h : heap) (l : list (option ref * list R)) : heap * list ref :=
  match l with
  | [] => (h, [])
  | (Some r, _) :: l' => let '(h', rs) := place h l' in (h', r :: rs)
  | (None, v) :: l' => let '(h', rs) := place (h ++ [v])%list l' in (h', Ref (length h) 0 (length v) :: rs)
  end.

(** ** classes *)
(** what an attribute refers to after a call: the same array as before, a new array, part of the k-th
    argument, the array of another attribute *)
Inductive source := Keep | New | Arg (k off len : nat) | Same (f : nat).
(** the same for results: a new array, or part of the array of an attribute *)
Inductive rsource := RNew | RField (f off len : nat).
Record class := Class {
  obj : Type; call : Type;
  nf : obj -> nat;                                  (* number of attributes which are arrays *)
  get : nat -> obj -> list R; put : nat -> list R -> obj -> obj;
  meth : call -> obj -> list (list R) -> res (obj * list (list R));
  binds : call -> obj -> list (list R) -> nat -> source;
  rets : call -> obj -> list rsource }.             (* of the object after the call *)

(** ** programs: the caller creates arrays, changes them in place, and calls methods of an object. Arrays
    are numbered in the order in which the program gets them. *)
Inductive event (C : Type) := ENew (v : list R) | EWrite (k i : nat) (v : R) | ECall (c : C) (ks : list nat).
Arguments ENew {C}. Arguments EWrite {C}. Arguments ECall {C}.

Section Run.
Variable K : class.
(** the object as a method finds it: each attribute has the value its array has now *)
Fixpoint load (h : heap) (refs : list ref) (f : nat) (o : obj K) : obj K :=
  match refs with
  | [] => o
  | r :: refs' => load h refs' (S f) (put K f (read h r) o)
  end.
Record world := World { w_heap : heap; w_obj : obj K; w_refs : list ref; w_vars : list ref }.
Definition none : ref := Ref 0 0 0.
Definition locate (refs args : list ref) (s : source) (f : nat) : option ref :=
  match s with
  | Keep => Some (nth f refs none)
  | New => None
  | Arg k off len => Some (view (nth k args none) off len)
  | Same g => Some (nth g refs none)
  end.
Definition rlocate (refs : list ref) (s : rsource) : option ref :=
  match s with RNew => None | RField f off len => Some (view (nth f refs none) off len) end.
(** the results of the calls, up to the first exception *)
Definition do_call (w : world) (c : call K) (ks : list nat) : res (world * list (list R)) :=
  let o := load (w_heap w) (w_refs w) 0 (w_obj w) in
  let args := map (fun k => nth k (w_vars w) none) ks in
  let vals := map (read (w_heap w)) args in
  let* p := meth K c o vals in
  let '(o', rs) := p in
  let '(h1, refs) := place (w_heap w) (map (fun f => (locate (w_refs w) args (binds K c o vals f) f, get K f o')) (seq 0 (nf K o'))) in
  let '(h2, outs) := place h1 (map (fun j => (rlocate refs (nth j (rets K c o') RNew), nth j rs [])) (seq 0 (length rs))) in
  Ok (World h2 o' refs (w_vars w ++ outs)%list, rs).
Fixpoint run (w : world) (es : list (event (call K))) : list (res (list (list R))) :=
  match es with
  | [] => []
  | ENew v :: es' => run (World (w_heap w ++ [v])%list (w_obj w) (w_refs w) (w_vars w ++ [Ref (length (w_heap w)) 0 (length v)])%list) es'
  | EWrite k i v :: es' =>
    let r := nth k (w_vars w) none in
    if Nat.ltb i (r_len r) then run (World (poke (w_heap w) r i v) (w_obj w) (w_refs w) (w_vars w)) es' else [Err IndexError]
  | ECall c ks :: es' =>
    match do_call w c ks with
    | Err e => [Err e]
    | Ok (w', rs) => Ok rs :: run w' es'
    end
  end.
(** the constructor: args are the arrays passed to it, b tells which attributes refer to them *)
Definition boot (o : obj K) (args : list (list R)) (b : nat -> source) : world :=
  let vars := map (fun k => Ref k 0 (length (nth k args []))) (seq 0 (length args)) in
  let '(h, refs) := place args (map (fun f => (locate [] vars (b f) f, get K f o)) (seq 0 (nf K o))) in
  World h o refs vars.
End Run.
