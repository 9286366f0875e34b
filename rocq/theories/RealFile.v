(** * RealFile: what GCC 12.2 writes for the C source below (gcc -gbtf, for x86-64 and, with -m32, for i386), and that C76 is about such files.
    The source is tools/abi/real.c:
      typedef unsigned int u32;
      typedef _Bool bool_;
      struct list_head { struct list_head *next, *prev; };
      enum state { IDLE = -1, BUSY = 7 };
      struct inner { char tag; short half; union { long word; u32 parts[2]; }; } ;
      struct wire { char kind; int value; short tail __attribute__((aligned(8))); } __attribute__((packed));
      struct task {
        volatile enum state state;
        bool_ on;
        unsigned flags : 3, : 2, mode : 30;
        const char *comm;
        struct list_head tasks;
        struct inner in[3];
        struct wire wire;
        int ( *run)(struct task *t, long n);
        double load;
      };
      struct task init;
    *)
From Coq Require Import Strings.String.
From Coq Require Import List NArith ZArith Bool Lia Strings.Byte.
From Verif Require Import TypeInfo Spec PathSpec Path QuerySpec Encode LoadProps Witness Sample PropPath PropOffset CSpec CFacts PropC.
Import ListNotations.
Open Scope N_scope.

Definition gcc64_img : list byte := [
  x9f; xeb; x01; x00; x18; x00; x00; x00; x00; x00; x00; x00; xa4; x02; x00; x00; xa4; x02; x00; x00; xfe; x00; x00; x00; x01; x00; x00; x00; x00; x00; x00; x01; x04; x00; x00; x00; x20; x00; x00; x00;
  x0e; x00; x00; x00; x00; x00; x00; x08; x01; x00; x00; x00; x12; x00; x00; x00; x00; x00; x00; x01; x01; x00; x00; x00; x08; x00; x00; x04; x18; x00; x00; x00; x00; x00; x00; x08; x03; x00; x00; x00;
  x1e; x00; x00; x00; x02; x00; x00; x04; x10; x00; x00; x00; x28; x00; x00; x00; x06; x00; x00; x00; x00; x00; x00; x00; x2d; x00; x00; x00; x06; x00; x00; x00; x40; x00; x00; x00; x00; x00; x00; x00;
  x00; x00; x00; x02; x05; x00; x00; x00; x32; x00; x00; x00; x02; x00; x00; x06; x04; x00; x00; x00; x38; x00; x00; x00; xff; xff; xff; xff; x3d; x00; x00; x00; x07; x00; x00; x00; x00; x00; x00; x00;
  x00; x00; x00; x09; x07; x00; x00; x00; x42; x00; x00; x00; x00; x00; x00; x01; x04; x00; x00; x00; x20; x00; x00; x01; x00; x00; x00; x00; x02; x00; x00; x05; x08; x00; x00; x00; x4f; x00; x00; x00;
  x0b; x00; x00; x00; x00; x00; x00; x00; x66; x00; x00; x00; x0d; x00; x00; x00; x00; x00; x00; x00; x46; x00; x00; x00; x00; x00; x00; x01; x08; x00; x00; x00; x40; x00; x00; x01; x54; x00; x00; x00;
  x00; x00; x00; x01; x08; x00; x00; x00; x40; x00; x00; x00; x00; x00; x00; x00; x00; x00; x00; x03; x00; x00; x00; x00; x02; x00; x00; x00; x0c; x00; x00; x00; x02; x00; x00; x00; x6c; x00; x00; x00;
  x03; x00; x00; x04; x10; x00; x00; x00; x77; x00; x00; x00; x0f; x00; x00; x00; x00; x00; x00; x00; x85; x00; x00; x00; x10; x00; x00; x00; x10; x00; x00; x00; x00; x00; x00; x00; x0a; x00; x00; x00;
  x40; x00; x00; x00; x72; x00; x00; x00; x00; x00; x00; x01; x01; x00; x00; x00; x08; x00; x00; x03; x7b; x00; x00; x00; x00; x00; x00; x01; x02; x00; x00; x00; x10; x00; x00; x01; x00; x00; x00; x00;
  x00; x00; x00; x0a; x0f; x00; x00; x00; x8a; x00; x00; x00; x03; x00; x00; x04; x10; x00; x00; x00; x8f; x00; x00; x00; x0f; x00; x00; x00; x00; x00; x00; x00; x94; x00; x00; x00; x09; x00; x00; x00;
  x08; x00; x00; x00; x9a; x00; x00; x00; x10; x00; x00; x00; x40; x00; x00; x00; x9f; x00; x00; x00; x0a; x00; x00; x84; x78; x00; x00; x00; xa4; x00; x00; x00; x08; x00; x00; x00; x00; x00; x00; x00;
  xaa; x00; x00; x00; x04; x00; x00; x00; x20; x00; x00; x00; xad; x00; x00; x00; x01; x00; x00; x00; x28; x00; x00; x03; xb3; x00; x00; x00; x01; x00; x00; x00; x40; x00; x00; x1e; xb8; x00; x00; x00;
  x14; x00; x00; x00; x80; x00; x00; x00; xbd; x00; x00; x00; x05; x00; x00; x00; xc0; x00; x00; x00; xc3; x00; x00; x00; x15; x00; x00; x00; x40; x01; x00; x00; xc6; x00; x00; x00; x12; x00; x00; x00;
  xc0; x02; x00; x00; xcb; x00; x00; x00; x18; x00; x00; x00; x40; x03; x00; x00; xd6; x00; x00; x00; x19; x00; x00; x00; x80; x03; x00; x00; x00; x00; x00; x00; x00; x00; x00; x02; x11; x00; x00; x00;
  x00; x00; x00; x00; x00; x00; x00; x03; x00; x00; x00; x00; x0e; x00; x00; x00; x0c; x00; x00; x00; x03; x00; x00; x00; x00; x00; x00; x00; x02; x00; x00; x0d; x09; x00; x00; x00; x00; x00; x00; x00;
  x17; x00; x00; x00; x00; x00; x00; x00; x0b; x00; x00; x00; x00; x00; x00; x00; x00; x00; x00; x02; x13; x00; x00; x00; x00; x00; x00; x00; x00; x00; x00; x02; x16; x00; x00; x00; xcf; x00; x00; x00;
  x00; x00; x00; x10; x08; x00; x00; x00; xdb; x00; x00; x00; x00; x00; x00; x0e; x13; x00; x00; x00; x01; x00; x00; x00; x00; x00; x00; x00; x00; x00; x00; x0c; x16; x00; x00; x00; xf9; x00; x00; x00;
  x01; x00; x00; x0f; x00; x00; x00; x00; x1a; x00; x00; x00; x00; x00; x00; x00; x78; x00; x00; x00; x00; x75; x6e; x73; x69; x67; x6e; x65; x64; x20; x69; x6e; x74; x00; x75; x33; x32; x00; x5f; x42;
  x6f; x6f; x6c; x00; x62; x6f; x6f; x6c; x5f; x00; x6c; x69; x73; x74; x5f; x68; x65; x61; x64; x00; x6e; x65; x78; x74; x00; x70; x72; x65; x76; x00; x73; x74; x61; x74; x65; x00; x49; x44; x4c; x45;
  x00; x42; x55; x53; x59; x00; x69; x6e; x74; x00; x6c; x6f; x6e; x67; x20; x69; x6e; x74; x00; x77; x6f; x72; x64; x00; x6c; x6f; x6e; x67; x20; x75; x6e; x73; x69; x67; x6e; x65; x64; x20; x69; x6e;
  x74; x00; x70; x61; x72; x74; x73; x00; x69; x6e; x6e; x65; x72; x00; x63; x68; x61; x72; x00; x74; x61; x67; x00; x73; x68; x6f; x72; x74; x20; x69; x6e; x74; x00; x68; x61; x6c; x66; x00; x77; x69;
  x72; x65; x00; x6b; x69; x6e; x64; x00; x76; x61; x6c; x75; x65; x00; x74; x61; x69; x6c; x00; x74; x61; x73; x6b; x00; x73; x74; x61; x74; x65; x00; x6f; x6e; x00; x66; x6c; x61; x67; x73; x00; x6d;
  x6f; x64; x65; x00; x63; x6f; x6d; x6d; x00; x74; x61; x73; x6b; x73; x00; x69; x6e; x00; x77; x69; x72; x65; x00; x72; x75; x6e; x00; x64; x6f; x75; x62; x6c; x65; x00; x6c; x6f; x61; x64; x00; x69;
  x6e; x69; x74; x00; x2f; x76; x65; x72; x69; x66; x2f; x74; x6f; x6f; x6c; x73; x2f; x61; x62; x69; x2f; x72; x65; x61; x6c; x2e; x63; x00; x00; x2e; x62; x73; x73; x00].
Definition gcc32_img : list byte := [
  x9f; xeb; x01; x00; x18; x00; x00; x00; x00; x00; x00; x00; x94; x02; x00; x00; x94; x02; x00; x00; xec; x00; x00; x00; x01; x00; x00; x00; x00; x00; x00; x01; x04; x00; x00; x00; x20; x00; x00; x00;
  x0e; x00; x00; x00; x00; x00; x00; x08; x01; x00; x00; x00; x12; x00; x00; x00; x00; x00; x00; x01; x01; x00; x00; x00; x08; x00; x00; x04; x18; x00; x00; x00; x00; x00; x00; x08; x03; x00; x00; x00;
  x1e; x00; x00; x00; x02; x00; x00; x04; x08; x00; x00; x00; x28; x00; x00; x00; x06; x00; x00; x00; x00; x00; x00; x00; x2d; x00; x00; x00; x06; x00; x00; x00; x20; x00; x00; x00; x00; x00; x00; x00;
  x00; x00; x00; x02; x05; x00; x00; x00; x32; x00; x00; x00; x02; x00; x00; x06; x04; x00; x00; x00; x38; x00; x00; x00; xff; xff; xff; xff; x3d; x00; x00; x00; x07; x00; x00; x00; x00; x00; x00; x00;
  x00; x00; x00; x09; x07; x00; x00; x00; x42; x00; x00; x00; x00; x00; x00; x01; x04; x00; x00; x00; x20; x00; x00; x01; x00; x00; x00; x00; x02; x00; x00; x05; x08; x00; x00; x00; x4f; x00; x00; x00;
  x0b; x00; x00; x00; x00; x00; x00; x00; x54; x00; x00; x00; x0c; x00; x00; x00; x00; x00; x00; x00; x46; x00; x00; x00; x00; x00; x00; x01; x04; x00; x00; x00; x20; x00; x00; x01; x00; x00; x00; x00;
  x00; x00; x00; x03; x00; x00; x00; x00; x02; x00; x00; x00; x01; x00; x00; x00; x02; x00; x00; x00; x5a; x00; x00; x00; x03; x00; x00; x04; x0c; x00; x00; x00; x65; x00; x00; x00; x0e; x00; x00; x00;
  x00; x00; x00; x00; x73; x00; x00; x00; x0f; x00; x00; x00; x10; x00; x00; x00; x00; x00; x00; x00; x0a; x00; x00; x00; x20; x00; x00; x00; x60; x00; x00; x00; x00; x00; x00; x01; x01; x00; x00; x00;
  x08; x00; x00; x03; x69; x00; x00; x00; x00; x00; x00; x01; x02; x00; x00; x00; x10; x00; x00; x01; x00; x00; x00; x00; x00; x00; x00; x0a; x0e; x00; x00; x00; x78; x00; x00; x00; x03; x00; x00; x04;
  x10; x00; x00; x00; x7d; x00; x00; x00; x0e; x00; x00; x00; x00; x00; x00; x00; x82; x00; x00; x00; x09; x00; x00; x00; x08; x00; x00; x00; x88; x00; x00; x00; x0f; x00; x00; x00; x40; x00; x00; x00;
  x8d; x00; x00; x00; x0a; x00; x00; x84; x60; x00; x00; x00; x92; x00; x00; x00; x08; x00; x00; x00; x00; x00; x00; x00; x98; x00; x00; x00; x04; x00; x00; x00; x20; x00; x00; x00; x9b; x00; x00; x00;
  x01; x00; x00; x00; x28; x00; x00; x03; xa1; x00; x00; x00; x01; x00; x00; x00; x40; x00; x00; x1e; xa6; x00; x00; x00; x13; x00; x00; x00; x60; x00; x00; x00; xab; x00; x00; x00; x05; x00; x00; x00;
  x80; x00; x00; x00; xb1; x00; x00; x00; x14; x00; x00; x00; xc0; x00; x00; x00; xb4; x00; x00; x00; x11; x00; x00; x00; x00; x02; x00; x00; xb9; x00; x00; x00; x17; x00; x00; x00; x80; x02; x00; x00;
  xc4; x00; x00; x00; x18; x00; x00; x00; xa0; x02; x00; x00; x00; x00; x00; x00; x00; x00; x00; x02; x10; x00; x00; x00; x00; x00; x00; x00; x00; x00; x00; x03; x00; x00; x00; x00; x0d; x00; x00; x00;
  x01; x00; x00; x00; x03; x00; x00; x00; x00; x00; x00; x00; x02; x00; x00; x0d; x09; x00; x00; x00; x00; x00; x00; x00; x16; x00; x00; x00; x00; x00; x00; x00; x0b; x00; x00; x00; x00; x00; x00; x00;
  x00; x00; x00; x02; x12; x00; x00; x00; x00; x00; x00; x00; x00; x00; x00; x02; x15; x00; x00; x00; xbd; x00; x00; x00; x00; x00; x00; x10; x08; x00; x00; x00; xc9; x00; x00; x00; x00; x00; x00; x0e;
  x12; x00; x00; x00; x01; x00; x00; x00; x00; x00; x00; x00; x00; x00; x00; x0c; x15; x00; x00; x00; xe7; x00; x00; x00; x01; x00; x00; x0f; x00; x00; x00; x00; x19; x00; x00; x00; x00; x00; x00; x00;
  x60; x00; x00; x00; x00; x75; x6e; x73; x69; x67; x6e; x65; x64; x20; x69; x6e; x74; x00; x75; x33; x32; x00; x5f; x42; x6f; x6f; x6c; x00; x62; x6f; x6f; x6c; x5f; x00; x6c; x69; x73; x74; x5f; x68;
  x65; x61; x64; x00; x6e; x65; x78; x74; x00; x70; x72; x65; x76; x00; x73; x74; x61; x74; x65; x00; x49; x44; x4c; x45; x00; x42; x55; x53; x59; x00; x69; x6e; x74; x00; x6c; x6f; x6e; x67; x20; x69;
  x6e; x74; x00; x77; x6f; x72; x64; x00; x70; x61; x72; x74; x73; x00; x69; x6e; x6e; x65; x72; x00; x63; x68; x61; x72; x00; x74; x61; x67; x00; x73; x68; x6f; x72; x74; x20; x69; x6e; x74; x00; x68;
  x61; x6c; x66; x00; x77; x69; x72; x65; x00; x6b; x69; x6e; x64; x00; x76; x61; x6c; x75; x65; x00; x74; x61; x69; x6c; x00; x74; x61; x73; x6b; x00; x73; x74; x61; x74; x65; x00; x6f; x6e; x00; x66;
  x6c; x61; x67; x73; x00; x6d; x6f; x64; x65; x00; x63; x6f; x6d; x6d; x00; x74; x61; x73; x6b; x73; x00; x69; x6e; x00; x77; x69; x72; x65; x00; x72; x75; x6e; x00; x64; x6f; x75; x62; x6c; x65; x00;
  x6c; x6f; x61; x64; x00; x69; x6e; x69; x74; x00; x2f; x76; x65; x72; x69; x66; x2f; x74; x6f; x6f; x6c; x73; x2f; x61; x62; x69; x2f; x72; x65; x61; x6c; x2e; x63; x00; x00; x2e; x62; x73; x73; x00].

(** The declarations, in the order of the files. *)
Definition x86_64 : machine := {| pointer_bytes := 8; pointer_align := 8; unnamed_aligns := false |}.
Definition i386 : machine := {| pointer_bytes := 4; pointer_align := 4; unnamed_aligns := false |}.
Definition source64 : program :=
  [ CInteger (s "unsigned int") 4 4 false;  (* 1 *)
    CTypedef (s "u32") 1;  (* 2 *)
    CInteger (s "_Bool") 1 1 false;  (* 3 *)
    CTypedef (s "bool_") 3;  (* 4 *)
    CAggregate false false 1 (nm "list_head") [member_ (nm "next") 6; member_ (nm "prev") 6];  (* 5 *)
    CPointer 5;  (* 6 *)
    CEnumeration (nm "state") 4 4 true [(s "IDLE", (-1)%Z); (s "BUSY", 7%Z)];  (* 7 *)
    CVolatile 7;  (* 8 *)
    CInteger (s "int") 4 4 true;  (* 9 *)
    CAggregate true false 1 None [member_ (nm "word") 11; member_ (nm "parts") 13];  (* 10 *)
    CInteger (s "long int") 8 8 true;  (* 11 *)
    CInteger (s "long unsigned int") 8 8 false;  (* 12 *)
    CArray 2 12 2;  (* 13 *)
    CAggregate false false 1 (nm "inner") [member_ (nm "tag") 15; member_ (nm "half") 16; member_ None 10];  (* 14 *)
    CInteger (s "char") 1 1 true;  (* 15 *)
    CInteger (s "short int") 2 2 true;  (* 16 *)
    CConst 15;  (* 17 *)
    CAggregate false true 1 (nm "wire") [member_ (nm "kind") 15; member_ (nm "value") 9; aligned_ (nm "tail") 16 8];  (* 18 *)
    CAggregate false false 1 (nm "task") [member_ (nm "state") 8; member_ (nm "on") 4;
      bits_ (nm "flags") 1 3; bits_ None 1 2; bits_ (nm "mode") 1 30; member_ (nm "comm") 20; member_ (nm "tasks") 5;
      member_ (nm "in") 21; member_ (nm "wire") 18; member_ (nm "run") 24; member_ (nm "load") 25];  (* 19 *)
    CPointer 17;  (* 20 *)
    CArray 14 12 3;  (* 21 *)
    CPrototype [(None, 23); (None, 11)] 9;  (* 22 *)
    CPointer 19;  (* 23 *)
    CPointer 22;  (* 24 *)
    CFloating (s "double") 8 8;  (* 25 *)
    CVariable (s "init") 19 1;  (* 26 *)
    CFunction None 0 22;  (* 27 *)
    CSection (s ".bss") 0 [(26, 0, 120)] ].  (* 28 *)
Definition source32 : program :=
  [ CInteger (s "unsigned int") 4 4 false;  (* 1 *)
    CTypedef (s "u32") 1;  (* 2 *)
    CInteger (s "_Bool") 1 1 false;  (* 3 *)
    CTypedef (s "bool_") 3;  (* 4 *)
    CAggregate false false 1 (nm "list_head") [member_ (nm "next") 6; member_ (nm "prev") 6];  (* 5 *)
    CPointer 5;  (* 6 *)
    CEnumeration (nm "state") 4 4 true [(s "IDLE", (-1)%Z); (s "BUSY", 7%Z)];  (* 7 *)
    CVolatile 7;  (* 8 *)
    CInteger (s "int") 4 4 true;  (* 9 *)
    CAggregate true false 1 None [member_ (nm "word") 11; member_ (nm "parts") 12];  (* 10 *)
    CInteger (s "long int") 4 4 true;  (* 11 *)
    CArray 2 1 2;  (* 12 *)
    CAggregate false false 1 (nm "inner") [member_ (nm "tag") 14; member_ (nm "half") 15; member_ None 10];  (* 13 *)
    CInteger (s "char") 1 1 true;  (* 14 *)
    CInteger (s "short int") 2 2 true;  (* 15 *)
    CConst 14;  (* 16 *)
    CAggregate false true 1 (nm "wire") [member_ (nm "kind") 14; member_ (nm "value") 9; aligned_ (nm "tail") 15 8];  (* 17 *)
    CAggregate false false 1 (nm "task") [member_ (nm "state") 8; member_ (nm "on") 4;
      bits_ (nm "flags") 1 3; bits_ None 1 2; bits_ (nm "mode") 1 30; member_ (nm "comm") 19; member_ (nm "tasks") 5;
      member_ (nm "in") 20; member_ (nm "wire") 17; member_ (nm "run") 23; member_ (nm "load") 24];  (* 18 *)
    CPointer 16;  (* 19 *)
    CArray 13 1 3;  (* 20 *)
    CPrototype [(None, 22); (None, 11)] 9;  (* 21 *)
    CPointer 18;  (* 22 *)
    CPointer 21;  (* 23 *)
    CFloating (s "double") 8 4;  (* 24 *)
    CVariable (s "init") 18 1;  (* 25 *)
    CFunction None 0 21;  (* 26 *)
    CSection (s ".bss") 0 [(25, 0, 96)] ].  (* 27 *)
Lemma source64_legal : legal x86_64 source64 (computed_layout x86_64 source64).
Proof. program_legal 5 (member_ (nm "next") 6) (member_ (nm "prev") 6) 5 5. Qed.
Lemma source32_legal : legal i386 source32 (computed_layout i386 source32).
Proof. program_legal 5 (member_ (nm "next") 6) (member_ (nm "prev") 6) 5 5. Qed.

Definition gcc64_ti : type_information := Eval vm_compute in table_of gcc64_img.
Definition gcc32_ti : type_information := Eval vm_compute in table_of gcc32_img.
Lemma gcc64_loads : type_information_new (file_env gcc64_img) = Ok gcc64_ti. Proof. vm_compute. reflexivity. Qed.
Lemma gcc32_loads : type_information_new (file_env gcc32_img) = Ok gcc32_ti. Proof. vm_compute. reflexivity. Qed.
(** What GCC wrote down: char and boolean marks, and values of enumerations always without a sign. *)
Definition by_gcc (char boolean flag : bool) : written :=
  {| w_char := char; w_boolean := boolean; w_flag := flag; w_value v := Unsigned (Z.to_N (snd v mod 2 ^ 32)) |}.
Ltac seen := first [exists (by_gcc false false false); vm_compute; reflexivity|exists (by_gcc true false false); vm_compute; reflexivity
  |exists (by_gcc false true false); vm_compute; reflexivity|exists (by_gcc false false true); vm_compute; reflexivity].
Ltac written_by_gcc ti loads := exists (types ti); split; [apply (load_iff (file_env _) _ eq_refl (file_serves _)); exists ti; split; [exact loads|reflexivity]|];
  let ts := eval vm_compute in (types ti) in change (types ti) with ts; repeat (apply Forall2_cons; [seen|]); apply Forall2_nil.
Lemma gcc64_compiled : compiled x86_64 source64 (computed_layout x86_64 source64) gcc64_img.
Proof. written_by_gcc gcc64_ti gcc64_loads. Qed.
Lemma gcc32_compiled : compiled i386 source32 (computed_layout i386 source32) gcc32_img.
Proof. written_by_gcc gcc32_ti gcc32_loads. Qed.

(** So all of C76 holds of these files; for example (the numbers are GCC's offsetof and sizeof, see tools/abi): *)
Example C76_met_gcc : let c := build64 true in
  legal x86_64 source64 (computed_layout x86_64 source64) /\ serves (rd (file_env gcc64_img)) gcc64_img /\ compiled x86_64 source64 (computed_layout x86_64 source64) gcc64_img /\
  type_information_new (file_env gcc64_img) = Ok gcc64_ti /\ id_of gcc64_ti (s "task") = Some 19 /\
  size_of c gcc64_ti 19 = Ok 120 /\ offset_of_returns c gcc64_ti 19 (s "in[2].parts[1]") (Ok (2, ByteOffset 84)) /\
  offset_of_returns c gcc64_ti 19 (s "wire.tail") (Ok (16, ByteOffset 96)) /\ offset_of_returns c gcc64_ti 19 (s "mode") (Ok (1, BitOffsetAndSize 64 30)) /\
  legal i386 source32 (computed_layout i386 source32) /\ compiled i386 source32 (computed_layout i386 source32) gcc32_img /\
  type_information_new (file_env gcc32_img) = Ok gcc32_ti /\ id_of gcc32_ti (s "task") = Some 18 /\
  size_of c gcc32_ti 18 = Ok 96 /\ offset_of_returns c gcc32_ti 18 (s "in[2].parts[1]") (Ok (2, ByteOffset 56)) /\
  offset_of_returns c gcc32_ti 18 (s "wire.tail") (Ok (15, ByteOffset 72)) /\ offset_of_returns c gcc32_ti 18 (s "load") (Ok (24, ByteOffset 84)).
Proof.
  cbv zeta.
  assert (R : forall ti t p r, r <> Diverge -> offset_of_uncached 20 (build64 true) ti t p = r -> offset_of_returns (build64 true) ti t p r).
  { intros ti t p r Z E. split; [exact Z|]. exists 20%nat. exact E. }
  split; [exact source64_legal|]. split; [apply file_serves|]. split; [exact gcc64_compiled|]. split; [exact gcc64_loads|]. split; [vm_compute; reflexivity|]. split; [vm_compute; reflexivity|].
  split; [apply R; [discriminate|vm_compute; reflexivity]|]. split; [apply R; [discriminate|vm_compute; reflexivity]|]. split; [apply R; [discriminate|vm_compute; reflexivity]|].
  split; [exact source32_legal|]. split; [exact gcc32_compiled|]. split; [exact gcc32_loads|]. split; [vm_compute; reflexivity|]. split; [vm_compute; reflexivity|].
  split; [apply R; [discriminate|vm_compute; reflexivity]|]. split; apply R; try discriminate; vm_compute; reflexivity.
Qed.
Print Assumptions C76_met_gcc.
