(** * Reader: src/utils/reader.rs and the [Readable] trait.  Model file. *)
From Verif Require Export Base.

(** src/utils/reader.rs:12-19 *)
Inductive endianness := Little | Big.

(** What a [Readable] answers to one request: the bytes it wrote into the
    buffer, or an error. *)
Inductive answer := Bytes (bs : list byte) | Fails (k : error_kind).

(** One read request and its answer: offset, length, answer. *)
Definition request := (N * N * answer)%type.

(** src/btf/readable.rs:12-15, [trait Readable].  The implementation belongs to
    the user, takes [&self] and may have interior mutability, so its answer may
    depend on the whole history of requests (most recent first). *)
Definition readable := list request -> N -> N -> answer.

(** Everything a load depends on besides the reader state. *)
Record env := { cfg : build; rd : readable }.

(** src/utils/reader.rs:21-31, [struct Reader].  [r_trace] is ghost state: the
    requests made so far, most recent first. *)
Record reader := { r_off : N; r_end : endianness; r_trace : list request }.

(** A method taking [&mut Reader] and returning [BTFResult]. *)
Definition M (A : Type) := reader -> outcome error_kind A * reader.
Definition ret {A} (a : A) : M A := fun r => (Ok a, r).
Definition fail {A} (k : error_kind) : M A := fun r => (Err k, r).
Definition lift {A} (o : outcome error_kind A) : M A := fun r => (o, r).
(** sequencing with [?] *)
Definition bind {A B} (m : M A) (k : A -> M B) : M B := fun r =>
  match m r with
  | (Ok a, r') => k a r'
  | (Err e, r') => (Err e, r')
  | (Panic p, r') => (Panic p, r')
  | (Diverge, r') => (Diverge, r')
  end.
Declare Scope m_scope.
Notation "x <- m ;; k" := (bind m (fun x => k)) (at level 61, m at next level, right associativity) : m_scope.
Notation "m ;;; k" := (bind m (fun _ => k)) (at level 61, right associativity) : m_scope.
Open Scope m_scope.

(** [Result::inspect_err] with a handler that changes the reader. *)
Definition inspect_err {A} (m : M A) (h : reader -> reader) : M A := fun r =>
  match m r with
  | (Err e, r') => (Err e, h r')
  | x => x
  end.

(** src/utils/reader.rs:35-41, [Reader::new] *)
Definition reader_new : reader := {| r_off := 0; r_end := Little; r_trace := [] |}.
(** src/utils/reader.rs:54-61 *)
Definition get_offset : M N := fun r => (Ok (r_off r), r).
Definition with_offset (o : N) (r : reader) : reader :=
  {| r_off := o; r_end := r_end r; r_trace := r_trace r |}.
Definition set_offset (o : N) : M unit := fun r => (Ok tt, with_offset o r).
(** src/utils/reader.rs:44-51 *)
Definition set_endianness (e : endianness) : M unit := fun r =>
  (Ok tt, {| r_off := r_off r; r_end := e; r_trace := r_trace r |}).

(** The callers pass a zero-filled buffer of [n] bytes; whatever the [Readable]
    writes, the buffer still has [n] bytes afterwards. *)
Definition fit (n : nat) (bs : list byte) : list byte := firstn n (bs ++ repeat x00 n).

(** src/utils/reader.rs:63-69, [Reader::read]: on an error the offset is not
    advanced; [self.offset += buffer.len()] is a plain usize addition. *)
Definition read (e : env) (n : N) : M (list byte) := fun r =>
  let a := rd e (r_trace r) (r_off r) n in
  let r' := {| r_off := r_off r; r_end := r_end r;
               r_trace := (r_off r, n, a) :: r_trace r |} in
  match a with
  | Fails k => (Err k, r')
  | Bytes bs =>
      match add_usize (cfg e) (r_off r) n with
      | Ok o => (Ok (fit (N.to_nat n) bs), with_offset o r')
      | Err k => (Err k, r')
      | Panic p => (Panic p, r')
      | Diverge => (Diverge, r')
      end
  end.

(** [uN::from_le_bytes] / [uN::from_be_bytes] *)
Fixpoint from_le_bytes (bs : list byte) : N :=
  match bs with [] => 0 | b :: bs' => bval b + 256 * from_le_bytes bs' end.
Definition from_be_bytes (bs : list byte) : N := from_le_bytes (rev bs).

(** The common shape of src/utils/reader.rs:80-119 *)
Definition read_uint (e : env) (n : N) : M N := fun r =>
  bind (read e n) (fun bs r' =>
    (Ok (match r_end r' with Little => from_le_bytes bs | Big => from_be_bytes bs end), r')) r.

(** src/utils/reader.rs:71-77 *)
Definition read_u8 (e : env) : M byte :=
  bs <- read e 1 ;;
  match bs with b :: _ => ret b | [] => lift (Panic IndexOutOfRange) end.
(** src/utils/reader.rs:79-91 *)
Definition read_u16 (e : env) : M N := read_uint e 2.
(** src/utils/reader.rs:93-105 *)
Definition read_u32 (e : env) : M N := read_uint e 4.
(** src/utils/reader.rs:107-119 *)
Definition read_u64 (e : env) : M N := read_uint e 8.

(** [value as iN] on a value of the same width: two's complement. *)
Definition as_signed (bits v : N) : Z :=
  if v <? 2 ^ (bits - 1) then Z.of_N v else (Z.of_N v - Z.of_N (2 ^ bits))%Z.
(** src/utils/reader.rs:121-139.  [i8] and [i16] are unused by the crate. *)
Definition read_i8 (e : env) : M Z := b <- read_u8 e ;; ret (as_signed 8 (bval b)).
Definition read_i16 (e : env) : M Z := v <- read_u16 e ;; ret (as_signed 16 v).
Definition read_i32 (e : env) : M Z := v <- read_u32 e ;; ret (as_signed 32 v).
Definition read_i64 (e : env) : M Z := v <- read_u64 e ;; ret (as_signed 64 v).

(** A [loop]/[while] whose body returns [inl s] to go round again with state
    [s] or [inr a] to leave; [Diverge] if [bound] rounds are not enough. *)
Definition while_M {S A} (bound : N) (body : S -> M (S + A)) (s0 : S) : M A := fun r0 =>
  match loop_N (fun sr : S * reader =>
                  match body (fst sr) (snd sr) with
                  | (Ok (inl s), r) => inl (s, r)
                  | (Ok (inr a), r) => inr (Ok a, r)
                  | (Err k, r) => inr (Err k, r)
                  | (Panic p, r) => inr (Panic p, r)
                  | (Diverge, r) => inr (Diverge, r)
                  end) bound (s0, r0) with
  | inr x => x
  | inl (_, r) => (Diverge, r)
  end.

(** [for _ in 0..n { list.push(m?) }] *)
Fixpoint repeat_M {A} (n : nat) (m : M A) : M (list A) :=
  match n with
  | O => ret []
  | S n' => a <- m ;; l <- repeat_M n' m ;; ret (a :: l)
  end.

(** src/utils/readable_buffer.rs:21-53, [ReadableBuffer] (test helper): an
    in-memory image.  [usize] is taken to be 64 bits wide there
    ([checked_add] overflow gives InvalidOffset). *)
Definition slice (img : list byte) (off n : N) : list byte :=
  firstn (N.to_nat n) (skipn (N.to_nat off) img).
Definition readable_buffer (img : list byte) : readable := fun _ off n =>
  let len := N.of_nat (length img) in
  if off =? len then Fails EOF
  else match checked 64 (off + n) with
       | None => Fails InvalidOffset
       | Some stop => if stop <=? len then Bytes (slice img off n) else Fails InvalidOffset
       end.

(** examples/get-type-offset.rs:25-31 (and the two other examples),
    [ReadableFile]: [read_exact_at], errors become [IOError]
    (src/btf/error.rs:89-97).  The file is assumed not to change. *)
Definition readable_file (img : list byte) : readable := fun _ off n =>
  if off + n <=? N.of_nat (length img) then Bytes (slice img off n) else Fails IOError.
