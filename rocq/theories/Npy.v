(** Array files (next-plaid/src/mmap.rs 62-399, 405-660, 659-1066, 1176-1255).
    A file is the list of its bytes (numbers 0..255).  Opening and mapping the file are not
    modelled: the functions take the bytes.  [usize] arithmetic is that of a release build on a
    64-bit machine, modulo 2^64.  Array elements are their bit patterns ([f32], [u8]) or signed
    numbers ([i64], [i32]). *)
From Verif Require Import Base Text Calendar.
Open Scope nat_scope.

Definition bytes := list Z.
(** [to_le_bytes] of an [n]-byte integer *)
Fixpoint le_bytes (n : nat) (z : Z) : bytes :=
  match n with O => [] | S m => (z mod 256)%Z :: le_bytes m (z / 256)%Z end.
(** [from_le_bytes], unsigned *)
Definition le_value (b : bytes) : Z := fold_right (fun x a => (x + 256 * a)%Z) 0%Z b.
(** the signed integer with an [n]-byte pattern *)
Definition signed (n : nat) (v : Z) : Z :=
  if (v <? 2 ^ (8 * Z.of_nat n - 1))%Z then v else (v - 2 ^ (8 * Z.of_nat n))%Z.
Definition wrap64 (z : Z) : Z := (z mod 2 ^ 64)%Z.
Definition size (f : bytes) : Z := Z.of_nat (length f).
(** [&f[a..b]] *)
Definition bslice (f : bytes) (a b : Z) : res bytes :=
  if ((a <=? b) && (b <=? size f))%Z then Ok (firstn (Z.to_nat (b - a)) (skipn (Z.to_nat a) f)) else Panic.
(** the elements of [w] bytes in a byte string *)
Definition elements (w : nat) (b : bytes) : list Z := map le_value (chunks w b).

(** ** Raw header format *)
(** mmap.rs 310-338 [write_array2_f32] (w = 4), 341-369 [write_array2_u8] (w = 1) *)
Definition write_array2 (w : nat) (nrows ncols : Z) (data : list Z) : bytes :=
  le_bytes 8 nrows ++ le_bytes 8 ncols ++ flat_map (le_bytes w) data.
(** mmap.rs 372-399 [write_array1_i64] *)
Definition write_array1_i64 (data : list Z) : bytes :=
  le_bytes 8 (Z.of_nat (length data)) ++ flat_map (le_bytes 8) data.
(** mmap.rs 69-112 [MmapArray2F32::from_raw_file] (w = 4), 180-224 [MmapArray2U8::from_raw_file]
    (w = 1): the shape *)
Definition from_raw2 (w : nat) (f : bytes) : res (Z * Z) :=
  if (size f <? 16)%Z then Err
  else
    let nrows := le_value (firstn 8 f) in
    let ncols := le_value (firstn 8 (skipn 8 f)) in
    if (size f <? wrap64 (16 + wrap64 (wrap64 (nrows * ncols) * Z.of_nat w)))%Z then Err
    else Ok (nrows, ncols).
(** The elements of an unchecked view of [n] elements at the start of [b]
    ([slice::from_raw_parts]); a view longer than [b] is undefined behaviour, shown as [Panic]. *)
Definition raw_parts (w : nat) (b : bytes) (n : Z) : res (list Z) :=
  if (n * Z.of_nat w <=? size b)%Z then Ok (firstn (Z.to_nat n) (elements w b)) else Panic.
(** mmap.rs 142-156, 233-241 [load_rows]: the elements of rows [start..end] of an array whose
    data begins at [off].  A wrapped [end - start] is not modelled: [start <= end] in every call. *)
Definition load_rows (w : nat) (f : bytes) (off ncols start stop : Z) : res (list Z) :=
  bind (bslice f (wrap64 (off + wrap64 (wrap64 (start * ncols) * Z.of_nat w)))
                 (wrap64 (off + wrap64 (wrap64 (stop * ncols) * Z.of_nat w)))) (fun b =>
  raw_parts w b (wrap64 ((stop - start) * ncols))).
(** mmap.rs 158-161, 243-246 [to_owned] *)
Definition raw2_to_owned (w : nat) (f : bytes) : res (Z * Z * list Z) :=
  bind (from_raw2 w f) (fun s => bind (load_rows w f 16 (snd s) 0 (fst s)) (fun l => Ok (s, l))).
(** mmap.rs 130-140 [row] *)
Definition raw2_row (w : nat) (f : bytes) (i : Z) : res (list Z) :=
  bind (from_raw2 w f) (fun s =>
  let start := wrap64 (16 + wrap64 (wrap64 (i * snd s) * Z.of_nat w)) in
  bind (bslice f start (wrap64 (start + wrap64 (snd s * Z.of_nat w)))) (fun b => raw_parts w b (snd s))).
(** mmap.rs 257-291 [MmapArray1I64::from_raw_file]: the length *)
Definition from_raw1 (f : bytes) : res Z :=
  if (size f <? 8)%Z then Err
  else let len := le_value (firstn 8 f) in
       if (size f <? wrap64 (8 + wrap64 (len * 8)))%Z then Err else Ok len.
(** mmap.rs 301-307 [get] *)
Definition get_i64 (f : bytes) (off i : Z) : res Z :=
  let start := wrap64 (off + wrap64 (i * 8)) in
  bind (bslice f start (wrap64 (start + 8))) (fun b => Ok (signed 8 (le_value b))).

(** ** NPY format *)
(** mmap.rs 406 [NPY_MAGIC] *)
Definition NPY_MAGIC : bytes := [147; 78; 85; 77; 80; 89]%Z.
(** mmap.rs 1177-1182 [npy_header_layout] *)
Definition npy_header_layout (dict : text) : nat * nat :=
  let header_len := length dict in
  let padding := (64 - (10 + header_len) mod 64) mod 64 in
  (padding, 10 + header_len + padding + 1).
(** mmap.rs 1184-1196 [npy_header_dict_1d], [npy_header_dict_2d] *)
Definition npy_header_dict_1d (len : Z) (dtype : text) : text :=
  txt "{'descr': '" ++ dtype ++ txt "', 'fortran_order': False, 'shape': (" ++ digits len ++ txt ",), }".
Definition npy_header_dict_2d (nrows ncols : Z) (dtype : text) : text :=
  txt "{'descr': '" ++ dtype ++ txt "', 'fortran_order': False, 'shape': (" ++ digits nrows ++ txt ", " ++ digits ncols ++ txt "), }".
(** mmap.rs 1198-1208 *)
Definition npy_header_size_1d (len : Z) (dtype : text) : nat := snd (npy_header_layout (npy_header_dict_1d len dtype)).
Definition npy_header_size_2d (nrows ncols : Z) (dtype : text) : nat := snd (npy_header_layout (npy_header_dict_2d nrows ncols dtype)).
(** mmap.rs 1211-1235 [write_npy_header].  The text is ASCII, one byte per character. *)
Definition write_npy_header (dict : text) : bytes :=
  let padded := dict ++ repeat 32%Z (fst (npy_header_layout dict)) ++ [10%Z] in
  NPY_MAGIC ++ [1; 0]%Z ++ le_bytes 2 (Z.of_nat (length padded)) ++ padded.
Definition write_npy_1d (w : nat) (dtype : text) (data : list Z) : bytes :=
  write_npy_header (npy_header_dict_1d (Z.of_nat (length data)) dtype) ++ flat_map (le_bytes w) data.
Definition write_npy_2d (w : nat) (dtype : text) (nrows ncols : Z) (data : list Z) : bytes :=
  write_npy_header (npy_header_dict_2d nrows ncols dtype) ++ flat_map (le_bytes w) data.

(** [str::find]: position of the first occurrence *)
Fixpoint find_text (p s : text) : option nat :=
  if starts_with p s then Some 0
  else match s with [] => None | _ :: r => option_map S (find_text p r) end.
(** [str::split(',')] *)
Fixpoint split_on (c : Z) (s : text) : list text :=
  match s with
  | [] => [[]]
  | x :: r => if (x =? c)%Z then [] :: split_on c r
              else match split_on c r with h :: t => (x :: h) :: t | [] => [[x]] end
  end.
(** [str::parse::<usize>] *)
Definition dec_value (t : text) : Z := fold_left (fun a c => (10 * a + (c - 48))%Z) t 0%Z.
Definition parse_usize (t : text) : res Z :=
  let ds := match t with c :: r => if (c =? 43)%Z then r else t | [] => t end in
  match ds with
  | [] => Err
  | _ => if forallb a_digit ds then let v := dec_value ds in if (v <? 2 ^ 64)%Z then Ok v else Err else Err
  end.

Section READ.
  Variable U : unicode.
  (** [std::str::from_utf8] *)
  Variable utf8 : bytes -> option text.

  (** mmap.rs 720-749 [parse_shape_from_header].  Positions are counted in characters; the cuts
      are at ASCII characters, so the parts are those of the byte positions. *)
  Fixpoint parse_parts (ps : list text) : res (list Z) :=
    match ps with
    | [] => Ok []
    | p :: r => match trim (u_ws U) p with
                | [] => parse_parts r
                | t => bind (parse_usize t) (fun d => bind (parse_parts r) (fun l => Ok (d :: l)))
                end
    end.
  Definition parse_shape_from_header (h : text) : res (list Z) :=
    match find_text (txt "'shape':") h with
    | None => Err
    | Some i =>
      let after := skipn (i + 8) h in
      match find_text (txt "(") after with
      | None => Err
      | Some a => match find_text (txt ")") after with
        | None => Err
        | Some b => if a + 1 <=? b then parse_parts (split_on 44 (firstn (b - (a + 1)) (skipn (a + 1) after))) else Panic
        end
      end
    end.
  (** mmap.rs 659-708: magic, version and length of the header: its start and end *)
  Definition header_range (f : bytes) : res (nat * Z) :=
    if (size f <? 10)%Z then Err
    else if negb (text_eqb (firstn 6 f) NPY_MAGIC) then Err
    else
      let major := nth 6 f 0%Z in
      bind (if (major =? 1)%Z then Ok (10, le_value (firstn 2 (skipn 8 f)))
            else if (major =? 2)%Z then (if (size f <? 12)%Z then Err else Ok (12, le_value (firstn 4 (skipn 8 f))))
            else Err) (fun r =>
      let header_end := (Z.of_nat (fst r) + snd r)%Z in
      if (size f <? header_end)%Z then Err else Ok (fst r, header_end)).
  Definition header_text (f : bytes) : res (text * Z) :=
    bind (header_range f) (fun r =>
    bind (bslice f (Z.of_nat (fst r)) (snd r)) (fun b =>
    match utf8 b with None => Err | Some h => Ok (h, snd r) end)).
  (** mmap.rs 660-717 [parse_npy_header] *)
  Definition parse_npy_header (f : bytes) : res (list Z * Z * bool) :=
    bind (header_text f) (fun h =>
    bind (parse_shape_from_header (fst h)) (fun shape =>
    Ok (shape, snd h, contains (txt "'fortran_order': True") (fst h)))).
  (** mmap.rs 781-819 [MmapNpyArray1I64::from_npy_file]: length and data offset *)
  Definition from_npy_1d (f : bytes) : res (Z * Z) :=
    bind (parse_npy_header f) (fun h =>
    let '(shape, off, _) := h in
    match shape with
    | [] => Err
    | len :: _ => if (size f <? wrap64 (off + wrap64 (len * 8)))%Z then Err else Ok (len, off)
    end).
  (** mmap.rs 839-853 [slice] *)
  Definition npy_slice_i64 (f : bytes) (start n : nat) : res (list Z) :=
    bind (from_npy_1d f) (fun x => mapM (fun i => get_i64 f (snd x) (Z.of_nat i)) (seq start n)).
  (** mmap.rs 879-916 [MmapNpyArray2F32::from_npy_file] (w = 4), 990-1027
      [MmapNpyArray2U8::from_npy_file] (w = 1): shape and data offset *)
  Definition from_npy_2d (w : nat) (f : bytes) : res (Z * Z * Z) :=
    bind (parse_npy_header f) (fun h =>
    let '(shape, off, _) := h in
    match shape with
    | [nrows; ncols] =>
      if (size f <? wrap64 (off + wrap64 (wrap64 (nrows * ncols) * Z.of_nat w)))%Z then Err else Ok (nrows, ncols, off)
    | _ => Err
    end).
  (** mmap.rs 934-983, 1044-1065 [view], [slice_rows] *)
  Definition npy_rows (w : nat) (f : bytes) (start stop : Z) : res (list Z) :=
    bind (from_npy_2d w f) (fun x => let '(_, ncols, off) := x in load_rows w f off ncols start stop).
  Definition npy_view (w : nat) (f : bytes) : res (Z * Z * list Z) :=
    bind (from_npy_2d w f) (fun x => let '(nrows, ncols, off) := x in
    bind (load_rows w f off ncols 0 nrows) (fun l => Ok (nrows, ncols, l))).

  (** mmap.rs 409-427 [parse_dtype_from_header] *)
  Definition parse_dtype_from_header (h : text) : res text :=
    match find_text (txt "'descr':") h with
    | None => Err
    | Some i =>
      let after := skipn (i + 8) h in
      match find_text (txt "'") after with
      | None => Err
      | Some a => let rest := skipn (a + 1) after in
        match find_text (txt "'") rest with None => Err | Some b => Ok (firstn b rest) end
      end
    end.
  (** mmap.rs 430-478 [detect_npy_dtype] *)
  Definition detect_npy_dtype (f : bytes) : res text := bind (header_text f) (fun h => parse_dtype_from_header (fst h)).

  (** ** Conversion of fast-plaid files *)
  (** mmap.rs 493-512, 554-573, 614-633: as [header_text], but a short file panics, and any
      version but 1 is read as 2 *)
  Definition convert_header (f : bytes) : res (text * Z) :=
    if (size f <? 10)%Z || negb (text_eqb (firstn 6 f) NPY_MAGIC) then Err
    else
      bind (if (nth 6 f 0 =? 1)%Z then Ok (10%Z, le_value (firstn 2 (skipn 8 f)))
            else if (size f <? 12)%Z then Panic else Ok (12%Z, le_value (firstn 4 (skipn 8 f)))) (fun r =>
      bind (bslice f (fst r) (fst r + snd r)) (fun b =>
      match utf8 b with None => Err | Some h => Ok (h, (fst r + snd r)%Z) end)).
  (** mmap.rs 545-598 [convert_i64_to_i32_npy]: the new content of the file *)
  Definition convert_i64_to_i32 (f : bytes) : res bytes :=
    bind (convert_header f) (fun h =>
    bind (parse_shape_from_header (fst h)) (fun shape =>
    match shape with
    | [len] => bind (bslice f (snd h) (wrap64 (snd h + wrap64 (len * 8)))) (fun d =>
        Ok (write_npy_header (npy_header_dict_1d len (txt "<i4")) ++ flat_map (le_bytes 4) (elements 8 d)))
    | _ => Err
    end)).
  (** mmap.rs 604-657 [normalize_u8_npy] *)
  Definition normalize_u8 (f : bytes) : res bytes :=
    bind (convert_header f) (fun h =>
    bind (parse_shape_from_header (fst h)) (fun shape =>
    match shape with
    | [nrows; ncols] => bind (bslice f (snd h) (wrap64 (snd h + wrap64 (nrows * ncols)))) (fun d =>
        Ok (write_npy_header (npy_header_dict_2d nrows ncols (txt "|u1")) ++ d))
    | _ => Err
    end)).
  (** mmap.rs 481-541 [convert_f16_to_f32_npy]; [widen] is [f16::to_f32] on bit patterns *)
  Definition convert_f16_to_f32 (widen : Z -> Z) (f : bytes) : res bytes :=
    bind (convert_header f) (fun h =>
    bind (parse_shape_from_header (fst h)) (fun shape =>
    let total := fold_left (fun a d => wrap64 (a * d)) shape 1%Z in
    bind (bslice f (snd h) (wrap64 (snd h + wrap64 (total * 2)))) (fun d =>
    let data := flat_map (le_bytes 4) (map widen (elements 2 d)) in
    match shape with
    | [len] => Ok (write_npy_header (npy_header_dict_1d len (txt "<f4")) ++ data)
    | [nrows; ncols] => Ok (write_npy_header (npy_header_dict_2d nrows ncols (txt "<f4")) ++ data)
    | _ => Err
    end))).
End READ.
