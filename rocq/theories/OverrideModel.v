(** Model of the temporary override of the CUDA flag, /repo/slippy/__init__.py lines 25-36. *)
From Coq Require Import List Bool.
Import ListNotations.

(** ** The class. An override object is its attribute [cuda]. *)

(** slippy/__init__.py lines 26-27: [__init__] keeps the flag. *)
Definition override_init (flag : bool) : bool := flag.
(** lines 29-31: [__enter__] switches the flag off, whatever it was. It returns [None], so that
    [with OverRideCuda() as x] binds nothing useful; not modelled. *)
Definition override_enter (flag : bool) : bool := false.
(** lines 33-36: [__exit__] puts the kept value back, with and without an exception. The returned
    [None] lets an exception pass. *)
Definition override_exit (saved : bool) (flag : bool) : bool := saved.

(** ** Programs of one thread which use it. *)

(** [SetFlag] is [slippy.CUDA = b], [Use] is any code that reads the flag, [Raise] any code that
    raises, [New x] is [x = OverRideCuda()], [With x p] is [with x: p], [WithNew p] is
    [with OverRideCuda(): p] and [Try p h] is [try: p except: h]. *)
Inductive stmt :=
| SetFlag (b : bool)
| Use
| Raise
| New (x : nat)
| With (x : nat) (body : stmt)
| WithNew (body : stmt)
| Seq (p q : stmt)
| Try (p handler : stmt).

(** The global flag, the variables that hold override objects and the values that were read (the
    oldest first). *)
Record world := { flag : bool; objs : nat -> option bool; seen : list bool }.
Definition set_flag (w : world) (b : bool) : world :=
  {| flag := b; objs := objs w; seen := seen w |}.

(** Python's [with] statement and the class above. The second component tells whether an exception
    is raised. A variable which isn't set raises [NameError]. *)
Fixpoint exec (p : stmt) (w : world) : world * bool :=
  match p with
  | SetFlag b => (set_flag w b, false)
  | Use => ({| flag := flag w; objs := objs w; seen := seen w ++ [flag w] |}, false)
  | Raise => (w, true)
  | New x => ({| flag := flag w;
                 objs := fun y => if Nat.eqb y x then Some (override_init (flag w)) else objs w y;
                 seen := seen w |}, false)
  | With x body =>
    match objs w x with
    | None => (w, true)
    | Some saved =>
      let '(w', r) := exec body (set_flag w (override_enter (flag w))) in
      (set_flag w' (override_exit saved (flag w')), r)
    end
  | WithNew body =>
    let saved := override_init (flag w) in
    let '(w', r) := exec body (set_flag w (override_enter (flag w))) in
    (set_flag w' (override_exit saved (flag w')), r)
  | Seq p q => let '(w', r) := exec p w in if r then (w', true) else exec q w'
  | Try p h => let '(w', r) := exec p w in if r then exec h w' else (w', false)
  end.

(** ** Several threads share the flag. *)

(** One step of a thread: making an override object, entering and leaving it, reading the flag. *)
Inductive op := Create | Enter | Exit | Read.
(** The flag, the objects of each thread which are not left yet (the last one first) and what each
    thread read. *)
Record shared := { gflag : bool; stacks : nat -> list bool; reads : list (nat * bool) }.
Definition put (f : nat -> list bool) (t : nat) (l : list bool) : nat -> list bool :=
  fun u => if Nat.eqb u t then l else f u.
Definition step (s : shared) (e : nat * op) : shared :=
  let '(t, o) := e in
  match o with
  | Create => {| gflag := gflag s; stacks := put (stacks s) t (override_init (gflag s) :: stacks s t);
                 reads := reads s |}
  | Enter => {| gflag := override_enter (gflag s); stacks := stacks s; reads := reads s |}
  | Exit =>
    match stacks s t with
    | [] => s
    | saved :: rest => {| gflag := override_exit saved (gflag s); stacks := put (stacks s) t rest;
                          reads := reads s |}
    end
  | Read => {| gflag := gflag s; stacks := stacks s; reads := reads s ++ [(t, gflag s)] |}
  end.
Definition run (s : shared) (es : list (nat * op)) : shared := fold_left step es s.
