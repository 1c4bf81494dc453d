(** Model of the constructor of surfaces and of the reading of their profiles from files
    (slippy/surface/Surface_class.py:1322-1469). The setters of the properties are those of SurfaceModel. *)
From Coq Require Import String Ascii List Bool Arith Reals.
From Verif Require Import Py SurfaceModel Flt.
Import ListNotations.
Local Open Scope R_scope.

(** An array of floats. Loaded profiles have two dimensions, or one if there are no rows. *)
Record table := Table { t_rows : nat; t_cols : nat; t_at : nat -> nat -> flt }.
Inductive loaded := Empty | Filled (t : table).

(** ** Text files *)
(** The white space that [str.split()] splits at (the part of it in ASCII). *)
Definition blank (c : ascii) : bool :=
  let n := nat_of_ascii c in (Nat.leb 9 n && Nat.leb n 13) || (Nat.leb 28 n && Nat.leb n 32).
(** [s.split()]: [w] is the word being read. *)
Fixpoint words_from (w : string) (s : string) : list string :=
  match s with
  | EmptyString => match w with EmptyString => [] | _ => [w] end
  | String c r =>
      if blank c then match w with EmptyString => words_from EmptyString r | _ => w :: words_from EmptyString r end
      else words_from (w ++ String c EmptyString) r
  end.
Definition words (s : string) : list string := words_from EmptyString s.

Section Text.
(** [float(s)], [None] for a ValueError. *)
Variable parse : string -> option flt.
Fixpoint parse_all (l : list string) : option (list flt) :=
  match l with
  | [] => Some []
  | s :: r => match parse s, parse_all r with Some x, Some v => Some (x :: v) | _, _ => None end
  end.
Definition nonempty (s : string) : bool := negb (String.eqb s "").
(** The fields of a row that are numbers to be (lines 1405-1421). A row of the reader has text only, so that the test for
    a float in line 1406 fails. *)
Definition fields (row : list string) : list string :=
  match row with [s] => filter nonempty (words s) | _ => filter nonempty row end.
(** The loop over the rows (lines 1403-1421). *)
Fixpoint number_rows (rows : list (list string)) : list (list flt) :=
  match rows with
  | [] => []
  | row :: r =>
      match row with
      | [] => number_rows r
      | _ => match parse_all (fields row) with Some v => v :: number_rows r | None => number_rows r end
      end
  end.
(** [np.asarray(profile, dtype=float)] of a list of lists: an error unless they have the same length. *)
Definition to_table (rows : list (list flt)) : result loaded :=
  match rows with
  | [] => Ok Empty
  | r :: rs => if forallb (fun x => Nat.eqb (List.length x) (List.length r)) rs
               then Ok (Filled (Table (List.length rows) (List.length r) (fun i j => nth j (nth i rows []) NaN)))
               else Err ValueError
  end.
(** [read_csv] (lines 1376-1424): a delimiter comes first, then the dialect, which is found from the first bytes of
    the file unless one is given. [sniff] may raise an error, here a SyntaxError; [reader] is the csv reader. *)
Variables (D : Type) (by_delimiter : string -> D) (sniff : string -> option D) (reader : D -> string -> list (list string)).
Definition read_csv (content : string) (delimiter : option string) (dialect : option D) (sniff_bytes : nat) : result loaded :=
  bind (match delimiter with
        | Some d => Ok (by_delimiter d)
        | None => match dialect with
                  | Some d => Ok d
                  | None => match sniff (substring 0 sniff_bytes content) with Some d => Ok d | None => Err SyntaxError end
                  end
        end) (fun d => to_table (number_rows (reader d content))).
End Text.

(** ** The geometry *)
(** The [profile] setter (lines 299-332) with what was loaded. Without rows there is one dimension: the extent and the
    grid spacing then have one too, and are left out here. *)
Record surface := Surf { geometry : geom; heights : option loaded; is_discrete : bool }.
Definition blank_surface : surface := Surf new_geom None false.
Definition put_profile (s : surface) (p : loaded) : surface * result unit :=
  match p with
  | Empty => (Surf (geometry s) (Some Empty) (is_discrete s), Ok tt)
  | Filled t => let '(g, r) := set_prof (geometry s) (t_rows t, t_cols t) in (Surf g (Some (Filled t)) (is_discrete s), r)
  end.
(** The setters of the grid spacing and of the extent. Without rows a division by the second length of the profile is
    an IndexError (line 231); a grid spacing is kept. *)
Definition put_spacing (s : surface) (h : R) : surface * result unit :=
  match heights s with
  | Some Empty => (Surf (Geom None None (Some h) None) (heights s) (is_discrete s), Ok tt)
  | _ => let '(g, r) := set_spacing (geometry s) h in (Surf g (heights s) (is_discrete s), r)
  end.
Definition put_extent (s : surface) (e : R * R) : surface * result unit :=
  match heights s with
  | Some Empty => (s, Err IndexError)
  | _ => let '(g, r) := set_extent (geometry s) e in (Surf g (heights s) (is_discrete s), r)
  end.
Definition put_shape (s : surface) (n : nat * nat) : surface * result unit :=
  match heights s with
  | Some _ => (s, Err ValueError)
  | None => let '(g, r) := set_shape (geometry s) n in (Surf g (heights s) (is_discrete s), r)
  end.
Definition andthen (x : surface * result unit) (f : surface -> surface * result unit) : surface * result unit :=
  match snd x with Ok _ => f (fst x) | Err _ => x end.

(** ** Other files *)
(** Arrays of a .mat file; [loadmat] gives arrays with two dimensions. Names that start with an underscore are those of
    loadmat. *)
Definition mat := list (string * table).
(** [self.grid_spacing = array] (lines 350-365): only an array with one element is a float, which must be finite. *)
Definition as_spacing (t : table) : result R :=
  if (Nat.eqb (t_rows t) 1 && Nat.eqb (t_cols t) 1)%bool then
    match t_at t 0 0 with Fin h => Ok h | PInf | NInf => Err ValueError | NaN => Err TypeError end
  else Err TypeError.
(** [read_mat] (lines 1426-1469). A grid spacing that is not a number is left out: it counts as refused here. *)
Definition read_mat (vars : mat) (profile_name spacing_name : option string) (s : surface) : surface * result unit :=
  let name := match profile_name with Some n => n | None => "profile"%string end in
  andthen
    (match spacing_name with
     | None => (s, Ok tt)
     | Some n => match dget n vars with
                 | None => (s, Err ValueError)
                 | Some t => match as_spacing t with Ok h => put_spacing s h | Err e => (s, Err e) end
                 end
     end)
    (fun s => match dget name vars with None => (s, Err ValueError) | Some t => put_profile s (Filled t) end).
(** [read_al3d] (lines 1353-1374): what the reader of these files gives for the depths and the size of a pixel. *)
Definition read_al3d (depths : option table) (pixel : option R) (s : surface) : surface * result unit :=
  match depths with
  | None => (s, Err KeyError)
  | Some t => andthen (put_profile s (Filled t)) (fun s => match pixel with None => (s, Err KeyError) | Some h => put_spacing s h end)
  end.

(** A file: its content as the readers see it. *)
Record file := File { f_ext : string; f_mat : mat; f_depths : option table; f_pixel : option R; f_text : result loaded }.
(** The arguments of the constructor. *)
Record args := Args { p_profile : option table; p_spacing : option R; p_shape : option (nat * nat); p_extent : option (R * R);
  p_file : option file; p_mat_profile : option string; p_mat_spacing : option string }.

(** [_Surface.__init__] (lines 152-167) *)
Definition base_init (a : args) (s : surface) : surface * result unit :=
  match p_spacing a, p_extent a, p_shape a with
  | Some _, Some _, Some _ => (s, Err ValueError)
  | _, _, _ =>
      let s := Surf (geometry s) (heights s) true in
      andthen (match p_spacing a with Some h => put_spacing s h | None => (s, Ok tt) end) (fun s =>
      andthen (match p_extent a with Some e => put_extent s e | None => (s, Ok tt) end) (fun s =>
      match p_shape a with Some n => put_shape s n | None => (s, Ok tt) end))
  end.
(** [Surface.__init__] (lines 1322-1351) *)
Definition given {A} (o : option A) : bool := match o with Some _ => true | None => false end.
Definition load (f : file) (a : args) (s : surface) : surface * result unit :=
  if String.eqb (f_ext f) ".mat" then read_mat (f_mat f) (p_mat_profile a) (p_mat_spacing a) s
  else if String.eqb (f_ext f) ".al3d" then read_al3d (f_depths f) (f_pixel f) s
  else if String.eqb (f_ext f) ".txt" || String.eqb (f_ext f) ".csv" then
    match f_text f with Ok p => put_profile s p | Err e => (s, Err e) end
  else (s, Err ValueError).
Definition construct (a : args) : surface * result unit :=
  let s := blank_surface in
  if given (p_profile a) || given (p_file a) then
    if given (p_shape a) then (s, Err ValueError)
    else if given (p_spacing a) && given (p_extent a) then (s, Err ValueError)
    else andthen (match p_profile a with Some t => put_profile s (Filled t) | None => (s, Ok tt) end) (fun s =>
         match p_file a with
         | Some f => if given (p_profile a) then (s, Err ValueError)
                     else andthen (load f a s) (base_init a)
         | None => base_init a s
         end)
  else base_init a s.
