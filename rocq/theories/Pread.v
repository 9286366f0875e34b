(** * Pread: the examples' [ReadableFile] on the operating system.  Model file. *)
From Verif Require Export Reader.

(** What one system call pread(fd, buffer, n, offset) did: it put bytes into the buffer (none at the end of the file), was
    interrupted by a signal (EINTR), or failed. *)
Inductive io := Delivered (bs : list byte) | Interrupted | Failed.
(** The operating system: what it does may depend on the requests so far, the number of calls made for the present request, the
    offset and the length. *)
Definition system := list request -> nat -> N -> N -> io.

(** examples/get-type-offset.rs:25-31 (and the two other examples): [self.file.read_exact_at(buffer, offset)], of the standard
    library (std/src/os/unix/fs.rs): call pread for what is missing until nothing is; an interrupted call is repeated, no bytes
    means UnexpectedEof.  Errors become IOError (src/btf/error.rs:89-97).  [k]: calls made before; [acc]: bytes read before.
    None: has not returned after [fuel] rounds. *)
Fixpoint read_exact_at (fuel : nat) (call : nat -> N -> N -> io) (k : nat) (off n : N) (acc : list byte) : option answer :=
  match fuel with
  | O => None
  | S fuel =>
      if n =? 0 then Some (Bytes acc) else
      match call k off n with
      | Delivered [] => Some (Fails IOError)
      | Delivered bs => read_exact_at fuel call (S k) (off + N.of_nat (length bs)) (n - N.of_nat (length bs)) (acc ++ bs)
      | Interrupted => read_exact_at fuel call (S k) off n acc
      | Failed => Some (Fails IOError)
      end
  end.
