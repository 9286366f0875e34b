# Validation of the C layout rules of CSpec.v

None of this is used by the proofs: these scripts compare the layout rules (`starts`, `align_of`, `lay` in `rocq/theories/CSpec.v`,
transcribed to Python) with real compilers. Run them in a scratch directory (they write r.c, r.o, r.btf).

- `rnd.py -m64|-m32 N SEED`: N random structs and unions (bitfields, unnamed and zero-width bitfields, packed, aligned, nested, arrays) against
  `gcc -gbtf`. 7200 structs, no difference; for structs that begin with an unnamed bitfield GCC 12.2 writes a wrong offset of the first named
  member into the BTF (its own `offsetof` agrees with the rules): the script passes over these.
- `rndc.py TARGET N SEED`: the same against Clang's `-fdump-record-layouts` for x86_64, i386 and aarch64 (`unnamed_aligns := true`). 4500 structs, no difference.
- `chk.py`, `chk2.py`: what of the hypotheses of C76 holds in a running kernel's BTF (/sys/kernel/btf/vmlinux as vm.btf; 126521 types): one list_head,
  tags only behind pointers, incomplete types with type 0, no unaligned members, no reserved bits. The rules give the offsets and size of 13041 of 13251 structs and unions
  (BTF does not record attributes and unnamed bitfields, so the others cannot be recomputed from it).
- `real.c`: the source of the two files in `rocq/theories/RealFile.v` (`gcc [-m32] -gbtf -c real.c`, section .BTF).
- `btf.py`: a small BTF reader for these scripts.
