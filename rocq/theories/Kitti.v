(** Model of src/kitti: fs.rs, point_cloud_reader.rs and oxt_reader.rs. *)
From Coq Require Import ZArith List Bool NArith Strings.Byte.
From Flocq Require Import Core BinarySingleNaN.
From Flocq Require Binary Bits.
From Verif Require Import Base F32 F64 Arith Geom.
Open Scope Z_scope.

Definition bytes := list byte.
Definition byte_val (b : byte) : Z := Z.of_N (Byte.to_N b).

(** std::io::Result.  Errors made by the crate, by the standard library while decoding,
    and by the operating system (numbered). *)
Inductive io_error : Type :=
| InvalidLength      (* "Invalid data length" *)
| InvalidFloat       (* "Invalid float" *)
| InvalidUtf8
| UnexpectedEof
| OsError (code : Z).
Inductive io (A : Type) : Type :=
| IoOk (a : A)
| IoErr (e : io_error).
Arguments IoOk {A} a.
Arguments IoErr {A} e.
(** The [?] operator. *)
Definition iobind {A B} (m : io A) (k : A -> io B) : io B :=
  match m with IoOk a => k a | IoErr e => IoErr e end.
Notation "'try' x <- m ; k" := (iobind m (fun x => k))
  (at level 200, x name, m at level 100, k at level 200).

(** ** point_cloud_reader.rs *)

(** The byte order of the target: byteorder::NativeEndian. *)
Inductive byte_order : Type := Little | Big.

(** Four bytes as a 32-bit word. *)
Definition word (bo : byte_order) (b0 b1 b2 b3 : byte) : Z :=
  match bo with
  | Little => byte_val b0 + 256 * (byte_val b1 + 256 * (byte_val b2 + 256 * byte_val b3))
  | Big => byte_val b3 + 256 * (byte_val b2 + 256 * (byte_val b1 + 256 * byte_val b0))
  end.

(** f32::from_bits, up to NaN payloads. *)
Definition f32_of_bits (w : Z) : f32 := Binary.B2BSN 24 128 (Bits.b32_of_bits w).

Section Reader.
(** How a 32-bit word is read as an f32: [f32_of_bits], or the word itself to speak
    about bit patterns. *)
Context {T : Type} (of_bits : Z -> T).

(** byteorder 1.3.4 read_f32_into from a slice into a buffer of [n] elements. *)
Fixpoint read_f32_into (bo : byte_order) (n : nat) (input : bytes) : io (list T) :=
  match n with
  | O => IoOk []
  | S n' =>
      match input with
      | b0 :: b1 :: b2 :: b3 :: rest =>
          try l <- read_f32_into bo n' rest; IoOk (of_bits (word bo b0 b1 b2 b3) :: l)
      | _ => IoErr UnexpectedEof
      end
  end.

(** src/kitti/point_cloud_reader.rs:31-34: enumerate and filter_map *)
Fixpoint drop_intensity (i : nat) (l : list T) : list T :=
  match l with
  | [] => []
  | val :: l' => if Nat.eqb ((i + 1) mod 4) 0 then drop_intensity (S i) l'
                 else val :: drop_intensity (S i) l'
  end.

(** src/kitti/point_cloud_reader.rs:6-36 read up to the construction of the matrix: the
    number of points and the values for it. *)
Definition read_values (bo : byte_order) (input : io bytes) : io (nat * list T) :=
  try point_cloud_bytes <- input;
  if negb (Nat.eqb (length point_cloud_bytes mod (4 * 4)) 0) then IoErr InvalidLength
  else
    let buf_size := (length point_cloud_bytes / 4)%nat in
    let num_points := (buf_size / 4)%nat in
    try buf <- read_f32_into bo buf_size point_cloud_bytes;
    IoOk (num_points, drop_intensity 0 buf).
End Reader.

(** src/kitti/point_cloud_reader.rs:6-36 read; the panic is that of from_iterator. *)
Definition cloud_read (bo : byte_order) (input : io bytes) : outcome (io matrix) :=
  match read_values f32_of_bits bo input with
  | IoErr e => Ret (IoErr e)
  | IoOk (num_points, vals) => do m <- matrix_from_iterator 3 num_points vals; Ret (IoOk m)
  end.

(** ** Strings *)

(** core::str::from_utf8, as its validation loop works (Rust 1.4x,
    library/core/src/str/validations.rs run_utf8_validation). *)
Definition between_b (lo hi b : Z) : bool := (lo <=? b) && (b <=? hi).
Definition continuation (b : Z) : bool := between_b 128 191 b.
Fixpoint utf8_valid_z (l : list Z) : bool :=
  match l with
  | [] => true
  | b0 :: l1 =>
      if b0 <? 128 then utf8_valid_z l1
      else if between_b 194 223 b0 then
        match l1 with
        | b1 :: l2 => continuation b1 && utf8_valid_z l2
        | _ => false
        end
      else if between_b 224 239 b0 then
        match l1 with
        | b1 :: b2 :: l3 =>
            (((b0 =? 224) && between_b 160 191 b1)
             || (between_b 225 236 b0 && between_b 128 191 b1)
             || ((b0 =? 237) && between_b 128 159 b1)
             || (between_b 238 239 b0 && between_b 128 191 b1))
            && continuation b2 && utf8_valid_z l3
        | _ => false
        end
      else if between_b 240 244 b0 then
        match l1 with
        | b1 :: b2 :: b3 :: l4 =>
            (((b0 =? 240) && between_b 144 191 b1)
             || (between_b 241 243 b0 && between_b 128 191 b1)
             || ((b0 =? 244) && between_b 128 143 b1))
            && continuation b2 && continuation b3 && utf8_valid_z l4
        | _ => false
        end
      else false
  end.
Definition utf8_valid (s : bytes) : bool := utf8_valid_z (map byte_val s).

(** str::split(" "): the pieces between single spaces (0x20 occurs in UTF-8 only as the
    space character). *)
Definition is_space (b : byte) : bool := byte_val b =? 32.
Fixpoint split_spaces (s : bytes) : list bytes :=
  match s with
  | [] => [[]]
  | b :: s' =>
      match split_spaces s' with
      | f :: fs => if is_space b then [] :: f :: fs else (b :: f) :: fs
      | [] => []
      end
  end.

(** ** oxt_reader.rs *)

(** na::Translation3<f64>: latitude, longitude, altitude *)
Definition gps : Type := (f64 * f64 * f64)%type.
(** na::Translation3<f32> *)
Definition translation : Type := (f32 * f32 * f32)%type.

(** src/kitti/oxt_reader.rs:5-7 *)
Definition EARTH_EQUATOR_CIRCUMFERENCE : f64 := f64_of_Z 40075160.
Definition EARTH_POLE_CIRCUMFERENCE : f64 := f64_of_Z 40008000.

(** src/kitti/oxt_reader.rs:29-41; [cos] is f64::cos. *)
Definition gps_to_meters (cos : f64 -> f64) (gps_point gps_origin : gps) : translation :=
  let '(p0, p1, p2) := gps_point in
  let '(o0, o1, o2) := gps_origin in
  let dlat := dsub p0 o0 in
  let dlon := dsub p1 o1 in
  let lat_circumference := dmul EARTH_EQUATOR_CIRCUMFERENCE (cos (to_radians dlat)) in
  (f32_of_f64 (ddiv (dmul dlon lat_circumference) (f64_of_Z 360)),
   f32_of_f64 (ddiv (dmul dlat EARTH_POLE_CIRCUMFERENCE) (f64_of_Z 360)),
   f32_of_f64 (dsub p2 o2)).

(** What the reader takes from the standard library and nalgebra: parsing of decimal
    numbers, the cosine and the quaternion for Euler angles. *)
Record oxt_env (Rot : Type) : Type := mkOxtEnv {
  parse64 : bytes -> option f64;
  parse32 : bytes -> option f32;
  cos64 : f64 -> f64;
  from_euler_angles : f32 -> f32 -> f32 -> Rot
}.
Arguments parse64 {Rot}.
Arguments parse32 {Rot}.
Arguments cos64 {Rot}.
Arguments from_euler_angles {Rot}.

Section Oxt.
Context {Rot : Type} (env : oxt_env Rot).

(** src/kitti/oxt_reader.rs:9-20 str_to_float *)
Definition str_to_float {F} (parse : bytes -> option F) (s : bytes) : io F :=
  match parse s with Some v => IoOk v | None => IoErr InvalidFloat end.

(** std::io::Read::read_to_string *)
Definition read_to_string (input : io bytes) : io bytes :=
  try b <- input; if utf8_valid b then IoOk b else IoErr InvalidUtf8.

Definition zero_translation : translation := (f0, f0, f0).

(** src/kitti/oxt_reader.rs:43-78 read.  A pose is its translation and its rotation. *)
Definition oxt_read (input : io bytes) (gps_origin : option gps) : io ((translation * Rot) * gps) :=
  try buffer <- read_to_string input;
  let str_values := split_spaces buffer in
  if Nat.ltb (length str_values) 6 then IoErr InvalidLength
  else
    let field i := nth i str_values [] in
    try v0 <- str_to_float (parse64 env) (field 0%nat);
    try v1 <- str_to_float (parse64 env) (field 1%nat);
    try v2 <- str_to_float (parse64 env) (field 2%nat);
    let gps_point := (v0, v1, v2) in
    try a0 <- str_to_float (parse32 env) (field 3%nat);
    try a1 <- str_to_float (parse32 env) (field 4%nat);
    try a2 <- str_to_float (parse32 env) (field 5%nat);
    let rotation := from_euler_angles env a0 a1 a2 in
    match gps_origin with
    | Some o => IoOk ((gps_to_meters (cos64 env) gps_point o, rotation), o)
    | None => IoOk ((zero_translation, rotation), gps_point)
    end.
End Oxt.

(** ** Directories *)

(** A file name: OsString as bytes (Unix). *)
Definition name := bytes.
(** A directory as seen through std::fs: the entries in the order the system lists
    them, each possibly failing, and the contents of each file (open and read). *)
Record directory : Type := mkDir {
  listing : io (list (io name));
  contents : name -> io bytes
}.

(** Byte-lexicographic comparison of names.  PathBuf compares component by component;
    the paths of one directory differ only in the last component. *)
Fixpoint name_leb (a b : name) : bool :=
  match a, b with
  | [], _ => true
  | _ :: _, [] => false
  | x :: a', y :: b' =>
      if byte_val x <? byte_val y then true
      else if byte_val y <? byte_val x then false
      else name_leb a' b'
  end.
(** Vec::sort: stable sort (here by insertion). *)
Fixpoint insert_name (a : name) (l : list name) : list name :=
  match l with
  | [] => [a]
  | b :: l' => if name_leb a b then a :: l else b :: insert_name a l'
  end.
Definition sort_names (l : list name) : list name := fold_right insert_name [] l.

(** Iterator::collect into a Result: the first error, or all values. *)
Fixpoint collect {A} (l : list (io A)) : io (list A) :=
  match l with
  | [] => IoOk []
  | x :: l' => try a <- x; try r <- collect l'; IoOk (a :: r)
  end.

(** src/kitti/fs.rs:3-11 seq_files_in_dir *)
Definition seq_files_in_dir (d : directory) : io (list name) :=
  try entries <- listing d;
  try paths <- collect entries;
  IoOk (sort_names paths).

(** src/kitti/point_cloud_reader.rs:48-62 and oxt_reader.rs:91-111: the lazy chain of
    enumerate, map and collect.  [step] reads one file given the state the closure
    captures.  The first component is the list of files opened.  When printing, a name
    that is not valid UTF-8 makes [to_str().unwrap()] panic. *)
Fixpoint read_files {S A} (step : S -> io bytes -> outcome (io (A * S))) (print_status : bool)
                    (d : directory) (s : S) (paths : list name)
  : list name * outcome (io (list A)) :=
  match paths with
  | [] => ([], Ret (IoOk []))
  | p :: ps =>
      if print_status && negb (utf8_valid p) then ([], Panic)
      else
        match step s (contents d p) with
        | Panic => ([p], Panic)
        | NoFuel => ([p], NoFuel)
        | Ret (IoErr e) => ([p], Ret (IoErr e))
        | Ret (IoOk (a, s')) =>
            let (opened, r) := read_files step print_status d s' ps in
            (p :: opened,
             do l <- r; Ret (match l with IoOk l => IoOk (a :: l) | IoErr e => IoErr e end))
        end
  end.

(** src/kitti/point_cloud_reader.rs:42-63 read_from_dir *)
Definition cloud_read_from_dir (bo : byte_order) (d : directory) (print_status : bool)
  : list name * outcome (io (list matrix)) :=
  match seq_files_in_dir d with
  | IoErr e => ([], Ret (IoErr e))
  | IoOk paths =>
      read_files (fun (_ : unit) c => do r <- cloud_read bo c;
                    Ret (match r with IoOk m => IoOk (m, tt) | IoErr e => IoErr e end))
                 print_status d tt paths
  end.

(** src/kitti/oxt_reader.rs:87-112 read_from_dir *)
Definition oxt_read_from_dir {Rot} (env : oxt_env Rot) (d : directory) (print_status : bool)
  : list name * outcome (io (list (translation * Rot))) :=
  match seq_files_in_dir d with
  | IoErr e => ([], Ret (IoErr e))
  | IoOk paths =>
      read_files (fun gps_origin c =>
                    Ret (match oxt_read env c gps_origin with
                         | IoOk (pose, new_gps_origin) => IoOk (pose, Some new_gps_origin)
                         | IoErr e => IoErr e
                         end))
                 print_status d None paths
  end.
