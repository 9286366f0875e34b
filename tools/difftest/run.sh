#!/bin/bash
# Differential test of the model (not part of the build, proves nothing): extracts the Coq model to OCaml, and compares it on random BTF files,
# Readables, paths and names with port.py, a line-by-line Python port of /repo/src written independently of the model.  Compared: result, error kind
# and message of the load, {:?} text of the table, the sequence of Readable calls, size_of, pointee_tid, offset_of, name_of, id_of; 32 and 64 bits,
# overflow checks on and off.  Usage: run.sh SEED CASES   (build /verif/rocq first; needs ocamlfind with zarith)
set -e
HERE=$(cd "$(dirname "$0")" && pwd); W=${WORK:-/tmp/difftest}; mkdir -p $W; cd $W
if [ ! -x model ]; then
cat > Ext.v <<'COQ'
From Coq Require Import List NArith ZArith Strings.Byte Extraction ExtrOcamlBasic.
From Verif Require Import TypeInfo Message LoadMessage Debug LoadProps.
Definition load_text (m : lmessage) := (lmessage_kind m, lmessage_text m).
Extraction Language OCaml.
Set Extraction Optimize.
Definition byte_of (n : N) : byte := match Byte.of_N n with Some b => b | None => x00 end.
Definition byte_to (b : byte) : N := Byte.to_N b.
Extraction "model.ml" byte_of byte_to type_information_new_msg type_information_new requests load_text message_text message_kind debug_table debug_type size_msg pointee_msg offset_of_msg name_of id_of get readable_file from_id Z.of_N Z.to_N offset_of_uncached.
COQ
cat > main.ml <<'OCAML'
module BZ = Z
open Model
let rec pos_of_z z = if BZ.equal z BZ.one then XH else if BZ.testbit z 0 then XI (pos_of_z (BZ.shift_right z 1)) else XO (pos_of_z (BZ.shift_right z 1))
let n_of_z z = if BZ.equal z BZ.zero then N0 else Npos (pos_of_z z)
let rec z_of_pos = function XH -> BZ.one | XO p -> BZ.shift_left (z_of_pos p) 1 | XI p -> BZ.succ (BZ.shift_left (z_of_pos p) 1)
let z_of_n = function N0 -> BZ.zero | Npos p -> z_of_pos p
let n_of_int i = n_of_z (BZ.of_int i)
let int_of_n n = BZ.to_int (z_of_n n)
let tbl = Array.init 256 (fun i -> byte_of (n_of_int i))
let bytes_of_string s = List.init (String.length s) (fun i -> tbl.(Char.code s.[i]))
let string_of_bytes l = let b = Buffer.create 64 in List.iter (fun x -> Buffer.add_char b (Char.chr (int_of_n (byte_to x)))) l; Buffer.contents b
let unhex h = String.init (String.length h / 2) (fun i -> Char.chr (int_of_string ("0x" ^ String.sub h (2*i) 2)))
let hex s = String.concat "" (List.map (fun c -> Printf.sprintf "%02x" (Char.code c)) (List.of_seq (String.to_seq s)))
let kind_name = function IOError -> "IOError" | EOF -> "EOF" | InvalidOffset -> "InvalidOffset" | InvalidMagic -> "InvalidMagic" | InvalidBTFKind -> "InvalidBTFKind" | InvalidStringOffset -> "InvalidStringOffset" | InvalidString -> "InvalidString" | UnsupportedType -> "UnsupportedType" | InvalidTypeHeaderAttribute -> "InvalidTypeHeaderAttribute" | InvalidTypeSectionOffset -> "InvalidTypeSectionOffset" | InvalidTypePath -> "InvalidTypePath" | InvalidTypeID -> "InvalidTypeID" | NotSized -> "NotSized" | UnexpectedBitfield -> "UnexpectedBitfield"
let out f g = function Ok a -> "ok " ^ f a | Err e -> "err " ^ g e | Panic _ -> "panic" | Diverge -> "diverge"
let sn n = BZ.to_string (z_of_n n)
let off = function ByteOffset b -> "B" ^ sn b | BitOffsetAndSize (b, z) -> "b" ^ sn b ^ "," ^ sn z
let rec nat_of = function 0 -> O | n -> S (nat_of (n-1))
let fuel = nat_of 400
let msg m = kind_name (message_kind m) ^ " " ^ hex (string_of_bytes (message_text m))
let lmsg m = let (k, t) = load_text m in kind_name k ^ " " ^ (match t with None -> "-" | Some t -> hex (string_of_bytes t))
let () =
  try while true do
    let l = input_line stdin in
    match String.split_on_char '\t' l with
    | [bits; checks; img; mode; qs] ->
      let b = { usize_bits = n_of_int (int_of_string bits); overflow_checks = checks = "1" } in
      let s = unhex img in let im = bytes_of_string s in
      let honest tr o n = readable_file im tr o n in
      let rd = match String.split_on_char ':' mode with
        | ["file"] -> honest
        | ["lenient"] -> fun tr o n -> (match honest tr o n with Bytes x -> Bytes x | Fails _ -> 
            let o = z_of_n o in if BZ.geq o (BZ.of_int (String.length s)) then Bytes [] else let o = BZ.to_int o in Bytes (bytes_of_string (String.sub s o (String.length s - o))))
        | ["fail"; k] -> let k = int_of_string k in fun tr o n -> if List.length tr = k then Fails EOF else honest tr o n
        | _ -> failwith "mode" in
      let e = { cfg = b; rd = rd } in
      let r = type_information_new_msg e in
      let reqs = String.concat " " (List.rev_map (fun ((o, n), _) -> sn o ^ "+" ^ sn n) (requests e)) in
      let r2 = out (fun _ -> "") kind_name (type_information_new e) in
      print_string (out (fun ti -> hex (string_of_bytes (debug_table (get ti)))) lmsg r ^ "\t" ^ r2 ^ "\t" ^ reqs);
      (match r with Ok ti when qs <> "" ->
        List.iter (fun q -> print_char '\t'; print_string (match String.split_on_char ',' q with
          | ["S"; t] -> out sn msg (size_msg b ti (n_of_z (BZ.of_string t)))
          | ["P"; t] -> out sn msg (pointee_msg ti (n_of_z (BZ.of_string t)))
          | ["N"; t] -> (match name_of ti (n_of_z (BZ.of_string t)) with None -> "-" | Some x -> hex (string_of_bytes x))
          | ["I"; h] -> (match id_of ti (bytes_of_string (unhex h)) with None -> "-" | Some x -> sn x)
          | ["O"; t; h] -> out (fun (u, o) -> sn u ^ " " ^ off o) msg (offset_of_msg fuel b ti (n_of_z (BZ.of_string t)) (bytes_of_string (unhex h)))
          | _ -> "?")) (String.split_on_char ';' qs)
      | _ -> ());
      print_newline ()
    | _ -> print_endline "bad line"
  done with End_of_file -> ()
OCAML
coqc -Q "$HERE/../../rocq/theories" Verif Ext.v
ocamlfind ocamlopt -O2 -package zarith -linkpkg model.mli model.ml main.ml -o model 2>/dev/null
fi
cp "$HERE"/port.py "$HERE"/fuzz.py .
python3 fuzz.py "${1:-1}" "${2:-500}"
