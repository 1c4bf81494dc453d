(** Model of the reader of Alicona files, /repo/slippy/surface/alicona.py. *)
From Coq Require Import List Bool ZArith Ascii String.
From Verif Require Import Py FileNumModel TstModel.
Import ListNotations.
Local Open Scope Z_scope.

Definition zero : ascii := ascii_of_N 0.
Definition bindr {A B} (r : res A) (f : A -> res B) : res B :=
  match r with Good a => f a | Raise e => Raise e | Endless => Endless end.
Notation "'let!' x := p 'in' q" := (bindr p (fun x => q)) (at level 200, x pattern, p at level 100, q at level 200).

(** lines 62-70: the number at the end of a file name, in brackets or after a space; the name must have one dot. *)
Fixpoint span_digits (n : text) : text * text :=
  match n with
  | [] => ([], [])
  | c :: r => if is_digit c then let '(d, r') := span_digits r in (c :: d, r') else ([], n)
  end.
Definition number_tag (name : text) : text :=
  let spaced :=
    let '(d, r) := span_digits (rev name) in
    match r with c :: _ => if is_space c then rev d else [] | [] => [] end in
  match rev name with
  | c :: r => if Ascii.eqb c ")"%char then
      let '(d, r') := span_digits r in
      match r' with c' :: _ => if Ascii.eqb c' "("%char then rev d else spaced | [] => spaced end
    else spaced
  | [] => spaced
  end.
Definition split_name (file_name : text) : res text :=
  match split "."%char file_name with
  | [name; _] => Good name
  | _ => Raise (Py ValueError)
  end.

(** [[byte for byte in line[20:-1] if byte != 0]] and [line[0:20]]. *)
Definition no_zeros (t : text) : text := filter (fun c => negb (Ascii.eqb c zero)) t.
Definition value_part (line : text) : text := no_zeros (skipn 20 (removelast line)).
Definition name_part (line : text) : text := no_zeros (firstn 20 line).
(** [decode], as in the model of the test files: only ASCII. *)
Definition decode (t : text) : res text :=
  if forallb (fun c => (N_of_ascii c <? 128)%N) t then Good t else Raise (Py ValueError).
(** Line 79: [line[:line.find(0)]], without a zero the last byte is left out. *)
Fixpoint before_zero (t : text) : option text :=
  match t with
  | [] => None
  | c :: r => if Ascii.eqb c zero then Some [] else option_map (cons c) (before_zero r)
  end.
Definition type_part (line : text) : text := match before_zero line with Some t => t | None => removelast line end.

(** [int(round(p / q))] for [q > 0]: to the nearest, halves to even. Simplification: the quotient isn't rounded to a
    floating point number first. *)
Definition round_div (p q : Z) : Z :=
  let a := p / q in let b := 2 * (p mod q) in
  if b <? q then a else if q <? b then a + 1 else if Z.even a then a else a + 1.

Section Reader.
Context {F Img : Type}.
(** [float(text)], [int(float)], [depth == InvalidPixelValue] for four bytes of depth, images in the same directory by
    their file name. *)
Variable parse_float : text -> option F.
Variable trunc : F -> option Z.
Inductive tag := TInt (z : Z) | TFloat (x : F) | TStr (s : text).
Variable invalid : tag -> text -> bool.
Variable image : text -> option Img.

(** lines 94-101 *)
Definition tag_of (tv_str : text) : tag :=
  match py_int tv_str with
  | Some z => TInt z
  | None => match parse_float tv_str with Some x => TFloat x | None => TStr tv_str end
  end.
Definition tags := list (key * tag).
(** lines 89-102 *)
Fixpoint read_tags (k : nat) (d : tags) (f : file) : res (tags * file) :=
  match k with
  | O => Good (d, f)
  | S k' =>
    let '(line, f) := readline f in
    let! tag_name := decode (name_part line) in
    let! tv_str := decode (value_part line) in
    read_tags k' (put (Some tag_name) (tag_of tv_str) d) f
  end.
Definition int_line (f : file) : res (Z * file) :=
  let '(line, f) := readline f in
  let! t := decode (value_part line) in
  match py_int t with Some z => Good (z, f) | None => Raise (Py ValueError) end.
(** lines 75-108: the header. *)
Definition read_header (f : file) : res tags :=
  let '(line, f) := readline f in
  let! type := decode (type_part line) in
  let! (version, f) := int_line f in
  let! (count, f) := int_line f in
  let d := [(Some (txt "Type"), TStr type); (Some (txt "Version"), TInt version); (Some (txt "TagCount"), TInt count)] in
  let! (d, f) := read_tags (Z.to_nat count) d f in
  let '(line, _) := readline f in
  let! comment := decode (value_part line) in
  Good (put (Some (txt "Comment")) (TStr comment) d).

(** [d[k]], and as an offset that is compared with zero. Simplification: offsets which are floating point numbers are
    left out. *)
Definition tag_item (k : string) (d : tags) : res tag :=
  match get (Some (txt k)) d with Some v => Good v | None => Raise (Py KeyError) end.
Definition offset (k : string) (d : tags) : res Z :=
  let! v := tag_item k d in
  match v with TInt z => Good z | TStr _ => Raise (Py TypeError) | TFloat _ => Raise Unmodelled end.
(** [int(tags['Rows'])]. Simplification: negative numbers of rows are left out. *)
Definition rows_of (d : tags) : res Z :=
  let! v := tag_item "Rows" d in
  let! z := match v with
    | TInt z => Good z
    | TFloat x => match trunc x with Some z => Good z | None => Raise (Py ValueError) end
    | TStr s => match py_int s with Some z => Good z | None => Raise (Py ValueError) end
    end in
  if z <? 0 then Raise Unmodelled else Good z.

(** A depth: four bytes, or not a number. *)
Inductive depth := Value (bytes : text) | NotANumber.
Fixpoint groups (n k : nat) (t : text) : list text :=
  match k with O => [] | S k' => firstn n t :: groups n k' (skipn n t) end.
Fixpoint chunks (n k : nat) (t : list depth) : list (list depth) :=
  match k with O => [] | S k' => firstn n t :: chunks n k' (skipn n t) end.
(** lines 134-140: the number of columns of depth data in the file. *)
Definition depth_cols (size depth_offset texture_offset rows : Z) : res Z :=
  if rows =? 0 then Raise (Py ZeroDivisionError) else
  Good (round_div (if texture_offset =? 0 then size - depth_offset else texture_offset - - depth_offset) (4 * rows)).
(** lines 142-147: the depth data. [f] is the whole file. Simplification: files which end before the depth data are left
    out. *)
Definition read_depth (f : file) (d : tags) (rows cols depth_offset : Z) : res (list (list depth)) :=
  if cols <=? 0 then Raise Unmodelled else
  let bytes := firstn (Z.to_nat (rows * cols * 4)) (skipn (Z.to_nat depth_offset) f) in
  if negb (Nat.eqb (Nat.modulo (List.length bytes) 4) 0) then Raise (Py ValueError) else
  let! invalid_value := tag_item "InvalidPixelValue" d in
  let count := Nat.div (List.length bytes) 4 in
  let cells := map (fun b => if invalid invalid_value b then NotANumber else Value b) (groups 4 count bytes) in
  if negb (Nat.eqb count (Z.to_nat (rows * cols))) then Raise (Py ValueError) else
  let! width := tag_item "Cols" d in
  match width with
  | TInt w => Good (map (fun row => if 0 <=? w then firstn (Z.to_nat w) row else firstn (List.length row - Z.to_nat (- w)) row) (chunks (Z.to_nat cols) (Z.to_nat rows) cells))
  | _ => Raise (Py TypeError)
  end.

(** lines 151-180: texture data in the file. [np.array(file.read(cols * rows))] is one string, not an array of bytes, so
    it has the wrong shape unless one element is asked for (left out). *)
Definition read_texture {T} (size : Z) (d : tags) (rows texture_offset : Z) : res T :=
  let! planes :=
    match get (Some (txt "TexturePtr")) d with
    | Some v => Good (match v with TStr s => if text_eqb s (txt "0;1;2") then TInt 4 else TInt 1 | _ => TInt 1 end)
    | None => match get (Some (txt "NumberOfPlanes")) d with Some v => Good v | None => Raise (Py NotImplementedError) end
    end in
  match planes with
  | TInt planes =>
    if planes * rows =? 0 then Raise (Py ZeroDivisionError) else
    let cols := Z.quot (size - texture_offset) (planes * rows) in
    if (cols * rows =? 1) then Raise Unmodelled else Raise (Py ValueError)
  | _ => Raise (Py TypeError)
  end.

Record contents := { header : tags; icon : option Img; depth_data : option (list (list depth)); texture_data : option Img }.
(** An image beside the file: first with the number of the file, then without. *)
Definition find_image (kind number : text) : option Img :=
  match image (kind ++ number ++ txt ".bmp") with Some i => Some i | None => image (kind ++ txt ".bmp") end.
(** lines 14-193 ([alicona_read]); [file_name] is the last part of the path. An icon in the file (lines 112-117) is read
    like the texture: [np.array] of the bytes is one number, or none, and never has the shape asked for. *)
Definition alicona_read (file_name : text) (f : file) : res contents :=
  let! name := split_name file_name in
  let number := number_tag name in
  let! d := read_header f in
  let! icon_offset := offset "IconOffset" d in
  if 0 <? icon_offset then Raise (Py ValueError) else
  let icon := find_image (txt "icon") number in
  let! rows := rows_of d in
  let! depth_offset := offset "DepthImageOffset" d in
  let size := Z.of_nat (List.length f) in
  let! depth :=
    if 0 <? depth_offset then
      let! texture_offset := offset "TextureImageOffset" d in
      let! cols := depth_cols size depth_offset texture_offset rows in
      let! x := read_depth f d rows cols depth_offset in Good (Some x)
    else Good None in
  let! texture_offset := offset "TextureImageOffset" d in
  let! texture := if 0 <? texture_offset then read_texture size d rows texture_offset else Good (find_image (txt "texture") number) in
  Good {| header := d; icon := icon; depth_data := depth; texture_data := texture |}.
End Reader.
