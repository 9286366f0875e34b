(** * CSpec: C type declarations, their layout in memory (as GCC and Clang do it), and where a designator like [a.b[3].c] leads (C76).
    Specification; nothing of the model is used but the constructors of [component] and [offset]. *)
From Coq Require Import Strings.String List NArith ZArith Bool Strings.Byte.
From Verif Require Import TypeInfo Spec Encode QuerySpec.
Import ListNotations.
Open Scope N_scope.

(** ** Declarations.  Types are numbered, in any order, from 1; 0 is void. *)
(** A member: its name ([None]: an anonymous struct or union, or an unnamed bitfield), its type, its width if it is a bitfield, and the alignment
    that an attribute asks for (1 if there is none, and for bitfields). *)
Record field := { f_name : option str; f_type : N; f_width : option N; f_align : N }.
(** Unnamed bitfields take place, but are not members. *)
Definition is_member (f : field) : bool := match f_name f, f_width f with None, Some _ => false | _, _ => true end.
Inductive cdecl :=
| CInteger (name : str) (size align : N) (signed : bool)
| CFloating (name : str) (size align : N)
| CEnumeration (name : option str) (size align : N) (signed : bool) (values : list (str * Z))
(** with values that need 64 bits *)
| CEnumeration64 (name : option str) (size align : N) (signed : bool) (values : list (str * Z))
| CPointer (target : N)
| CArray (element index count : N)
| CTypedef (name : str) (target : N)
| CConst (target : N)
| CVolatile (target : N)
| CRestrict (target : N)
(** an attribute of a type: __user, __rcu, __percpu *)
| CTag (name : str) (target : N)
| CIncomplete (name : str) (is_union : bool)
| CPrototype (parameters : list (option str * N)) (returns : N)
(** not types: functions (GCC 12 also writes some without a name), variables, sections, attributes of declarations *)
| CFunction (name : option str) (linkage prototype : N)
| CVariable (name : str) (type linkage : N)
| CSection (name : str) (size : N) (variables : list (N * N * N))
| CMark (name : str) (target component : N)
(** [packed] and [aligned]: the attributes ([aligned] is 1 if there is none) *)
| CAggregate (is_union packed : bool) (aligned : N) (name : option str) (fields : list field).
Definition program := list cdecl.
Definition declared (P : program) (t : N) (d : cdecl) : Prop := 1 <= t /\ nth_error P (N.to_nat (t - 1)) = Some d.

(** ** Layout *)
(** What depends on the machine: the size and alignment of a pointer, and whether unnamed bitfields align their struct. *)
Record machine := { pointer_bytes : N; pointer_align : N; unnamed_aligns : bool }.
Definition round_up (n a : N) : N := (n + a - 1) / a * a.
Section Layout.
  (** [L t]: size and alignment of the type [t] in bytes, if it is complete *)
  Context (m : machine) (L : N -> option (N * N)).
  (** The alignment of a member whose type has the alignment [a]. *)
  Definition align_of (packed : bool) (a : N) (f : field) : N :=
    match f_width f with
    | None => N.max (if packed then 1 else a) (f_align f)
    | Some _ => if packed || (negb (is_member f) && negb (unnamed_aligns m)) then 1 else a
    end.
  (** The first bit of a struct member, if the bits before [pos] are taken: the next multiple of its alignment. A bitfield starts at
      once, unless it would then lie in more units (of its type's alignment) than its type does; width 0 ends the unit. *)
  Definition starts (packed : bool) (pos size a : N) (f : field) : N :=
    match f_width f with
    | None => round_up pos (8 * align_of packed a f)
    | Some w => if w =? 0 then round_up pos (8 * a)
                else if packed || ((pos mod (8 * a) + w + 8 * a - 1) / (8 * a) <=? size / a) then pos else round_up pos (8 * a)
    end.
  Definition takes_bits (size : N) (width : option N) : N := match width with None => 8 * size | Some w => w end.
  Definition where_ (start : N) (width : option N) : offset :=
    match width with None => ByteOffset (start / 8) | Some w => BitOffsetAndSize start w end.
  (** The members with their places, the first bit behind them, and their alignment; the members of a union all start at 0. *)
  Fixpoint lay (is_union packed : bool) (pos align : N) (fs : list field) : option (list (option str * N * offset) * N * N) :=
    match fs with
    | [] => Some ([], pos, align)
    | f :: fs' =>
        match L (f_type f) with
        | None => None
        | Some (s, a) =>
            let start := if is_union then 0 else starts packed pos s a f in
            let stop := start + takes_bits s (f_width f) in
            match lay is_union packed (if is_union then N.max pos stop else stop) (N.max align (align_of packed a f)) fs' with
            | None => None
            | Some (ms, stop', align') =>
                Some ((if is_member f then [(f_name f, f_type f, where_ start (f_width f))] else []) ++ ms, stop', align')
            end
        end
    end.
  Definition layout_of_fields (is_union packed : bool) (aligned : N) (fs : list field) : option (list (option str * N * offset) * (N * N)) :=
    match lay is_union packed 0 aligned fs with
    | None => None
    | Some (ms, stop, align) => Some (ms, (round_up ((stop + 7) / 8) align, align))
    end.
  Definition size_align (d : cdecl) : option (N * N) :=
    match d with
    | CInteger _ s a _ | CFloating _ s a | CEnumeration _ s a _ _ | CEnumeration64 _ s a _ _ => Some (s, a)
    | CPointer _ => Some (pointer_bytes m, pointer_align m)
    | CArray e _ n => match L e with Some (s, a) => Some (s * n, a) | None => None end
    | CTypedef _ t | CConst t | CVolatile t | CRestrict t | CTag _ t | CVariable _ t _ => L t
    | CSection _ s _ => Some (s, 1)
    | CIncomplete _ _ | CPrototype _ _ | CFunction _ _ _ | CMark _ _ _ => None
    | CAggregate u pk al _ fs => option_map snd (layout_of_fields u pk al fs)
    end.
End Layout.
(** [L] is the layout of the program. *)
Definition abi (m : machine) (P : program) (L : N -> option (N * N)) : Prop :=
  (forall t d, declared P t d -> L t = size_align m L d) /\ (forall t, (forall d, ~ declared P t d) -> L t = None).

(** ** Designators *)
(** [t] is a typedef, a qualified version, or (if [tags]) a tagged version of [u]. *)
Definition behind (tags : bool) (P : program) (t u : N) : Prop :=
  exists d, declared P t d /\ match d with CTypedef _ v | CConst v | CVolatile v | CRestrict v => v = u | CTag _ v => tags = true /\ v = u | _ => False end.
(** Behind these, [t] is [d]. *)
Definition c_is (tags : bool) (P : program) (t : N) (d : cdecl) : Prop := exists r, chain (behind tags P) t r /\ declared P r d.
(** [reaches tags sz m P L t cs u o]: in an object of type [t], [cs] is the object of type [u] at [o]. [tags]: whether type tags are seen through.
    [sz e z]: the elements of an array of [e] lie [z] bytes apart. *)
Inductive reaches (tags : bool) (sz : N -> N -> Prop) (m : machine) (P : program) (L : N -> option (N * N)) : N -> list component -> N -> offset -> Prop :=
| d_itself t : reaches tags sz m P L t [] t (ByteOffset 0)
| d_element t e x n i cs z u o : c_is tags P t (CArray e x n) -> i < n -> sz e z ->
    reaches tags sz m P L e cs u o -> reaches tags sz m P L t (Index i :: cs) u (shift (i * z) o)
| d_member t un pk al nm fs ms sa n v b cs u o :
    c_is tags P t (CAggregate un pk al nm fs) -> layout_of_fields m L un pk al fs = Some (ms, sa) -> In (Some n, v, ByteOffset b) ms ->
    reaches tags sz m P L v cs u o -> reaches tags sz m P L t (Name n :: cs) u (shift b o)
| d_bitfield t un pk al nm fs ms sa n v b w :
    c_is tags P t (CAggregate un pk al nm fs) -> layout_of_fields m L un pk al fs = Some (ms, sa) -> In (Some n, v, BitOffsetAndSize b w) ms ->
    reaches tags sz m P L t [Name n] v (BitOffsetAndSize b w)
| d_anonymous t un pk al nm fs ms sa n v b cs u o :
    c_is tags P t (CAggregate un pk al nm fs) -> layout_of_fields m L un pk al fs = Some (ms, sa) -> In (None, v, ByteOffset b) ms ->
    reaches tags sz m P L v (Name n :: cs) u o -> reaches tags sz m P L t (Name n :: cs) u (shift b o).
(** In C, type tags change nothing, and the elements of an array follow each other. *)
Definition c_size (L : N -> option (N * N)) (e z : N) : Prop := exists a, L e = Some (z, a).
Definition designates (m : machine) (P : program) (L : N -> option (N * N)) : N -> list component -> N -> offset -> Prop := reaches true (c_size L) m P L.

(** ** The rules of C *)
(** The types a declaration needs to be complete or is another name for. *)
Definition refers (d : cdecl) : list N :=
  match d with
  | CArray e _ _ => [e]
  | CTypedef _ t | CConst t | CVolatile t | CRestrict t | CTag _ t | CVariable _ t _ => [t]
  | CAggregate _ _ _ _ fs => map f_type fs
  | _ => []
  end.
(** No type contains itself, nor is it another name for itself. *)
Definition no_circles (P : program) : Prop := exists rank : N -> nat, forall t d u, declared P t d -> In u (refers d) -> (rank u < rank t)%nat.
(** [t] has a member called [n], possibly in an anonymous member. *)
Inductive c_offers (tags : bool) (P : program) (n : str) : N -> Prop :=
| c_offers_member t un pk al nm fs f : c_is tags P t (CAggregate un pk al nm fs) -> In f fs -> f_name f = Some n -> c_offers tags P n t
| c_offers_anonymous t un pk al nm fs f : c_is tags P t (CAggregate un pk al nm fs) -> In f fs -> f_name f = None -> f_width f = None -> c_offers tags P n (f_type f) -> c_offers tags P n t.
Definition c_accounts (tags : bool) (P : program) (n : str) (f : field) : Prop := f_name f = Some n \/ (f_name f = None /\ f_width f = None /\ c_offers tags P n (f_type f)).
(** No two members have the same name, not even through anonymous members. *)
Definition distinct_members (P : program) : Prop :=
  forall t un pk al nm fs n i j f g, declared P t (CAggregate un pk al nm fs) -> nth_error fs i = Some f -> nth_error fs j = Some g ->
    c_accounts true P n f -> c_accounts true P n g -> i = j.
Definition c_name (d : cdecl) : option str :=
  match d with
  | CInteger n _ _ _ | CFloating n _ _ | CTypedef n _ | CTag n _ | CIncomplete n _ | CVariable n _ _ | CSection n _ _ | CMark n _ _ => Some n
  | CEnumeration n _ _ _ _ | CEnumeration64 n _ _ _ _ | CAggregate _ _ _ n _ | CFunction n _ _ => n
  | _ => None
  end.
(** [t] is called [n], and nothing after it is: programs can use a name more than once (a struct, a typedef, functions of different files). *)
Definition last_called (P : program) (n : str) (t : N) : Prop :=
  (exists d, declared P t d /\ c_name d = Some n) /\ forall t' d, declared P t' d -> c_name d = Some n -> t' <= t.
Definition has_bitfields (fs : list field) : bool := existsb (fun f => match f_name f, f_width f with Some _, Some _ => true | _, _ => false end) fs.
Definition is_tag (P : program) (t : N) : Prop := exists n u, declared P t (CTag n u).
(** Type tags belong to what a pointer points to, before anything else. *)
Definition tags_behind_pointers (P : program) : Prop :=
  forall t d u, declared P t d -> In u (refers d) -> is_tag P u -> is_tag P t.
(** A kernel has [struct list_head { struct list_head *next, *prev; }], and nothing else is called list_head. *)
Definition has_list_head (P : program) : Prop :=
  exists h f g p q, declared P h (CAggregate false false 1 (Some (String.list_byte_of_string "list_head")) [f; g]) /\
    declared P (f_type f) (CPointer p) /\ f_width f = None /\ f_align f = 1 /\ declared P (f_type g) (CPointer q) /\ f_width g = None /\ f_align g = 1 /\
    forall t d, declared P t d -> c_name d = Some (String.list_byte_of_string "list_head") -> t = h.
(** The rest of the rules, for one declaration; and what a BTF file can express. *)
Definition field_ok (L : N -> option (N * N)) (f : field) : Prop :=
  Forall ascii_name (opt_name (f_name f)) /\ f_type f < 2 ^ 32 /\ 1 <= f_align f /\
  match f_width f with
  | None => True
  | Some w => f_align f = 1 /\ (is_member f = true -> 1 <= w < 2 ^ 8) /\ exists s a, L (f_type f) = Some (s, a) /\ w <= 8 * s
  end.
Definition cdecl_ok (m : machine) (L : N -> option (N * N)) (d : cdecl) : Prop :=
  Forall ascii_name (opt_name (c_name d)) /\
  match d with
  | CInteger _ s a _ => 1 <= s <= 16 /\ 1 <= a
  | CFloating _ s a => 1 <= s < 2 ^ 32 /\ 1 <= a
  | CEnumeration _ s a sg vs => 1 <= s < 2 ^ 32 /\ 1 <= a /\ len vs < 2 ^ 16 /\ Forall (fun v => ascii_name (fst v) /\ if sg then (- 2 ^ 31 <= snd v < 2 ^ 31)%Z else (0 <= snd v < 2 ^ 32)%Z) vs
  | CEnumeration64 _ s a sg vs => 1 <= s < 2 ^ 32 /\ 1 <= a /\ len vs < 2 ^ 16 /\ Forall (fun v => ascii_name (fst v) /\ if sg then (- 2 ^ 63 <= snd v < 2 ^ 63)%Z else (0 <= snd v < 2 ^ 64)%Z) vs
  | CPointer t | CTypedef _ t | CConst t | CVolatile t | CRestrict t | CTag _ t => t < 2 ^ 32
  | CFunction _ l t => t < 2 ^ 32 /\ l < 2 ^ 16
  | CVariable _ t l => t < 2 ^ 32 /\ l < 2 ^ 32
  | CSection _ s vs => s < 2 ^ 32 /\ len vs < 2 ^ 16 /\ Forall (fun v => fst (fst v) < 2 ^ 32 /\ snd (fst v) < 2 ^ 32 /\ snd v < 2 ^ 32) vs
  | CMark _ t c => t < 2 ^ 32 /\ c < 2 ^ 32
  | CArray e x n => L e <> None /\ e < 2 ^ 32 /\ x < 2 ^ 32 /\ n < 2 ^ 32
  | CIncomplete _ _ => True
  | CPrototype ps r => r < 2 ^ 32 /\ len ps < 2 ^ 16 /\ Forall (fun p => Forall ascii_name (opt_name (fst p)) /\ snd p < 2 ^ 32) ps
  | CAggregate _ _ al _ fs => 1 <= al /\ len (filter is_member fs) < 2 ^ 16 /\ Forall (field_ok L) fs /\
      exists s a, size_align m L d = Some (s, a) /\ (has_bitfields fs = true -> 8 * s < 2 ^ 24)
  end.
Record lawful (m : machine) (P : program) (L : N -> option (N * N)) : Prop := {
  l_machine : 1 <= pointer_align m /\ (pointer_align m | pointer_bytes m);
  l_abi : abi m P L;
  l_circles : no_circles P;
  l_distinct : distinct_members P;
  l_tags : tags_behind_pointers P;
  l_ok : forall t d, declared P t d -> cdecl_ok m L d;
  l_small : forall t s a, L t = Some (s, a) -> 8 * s < 2 ^ 32 }.
(** btfparse takes the size of a pointer from list_head: if there are pointers, it has to be there (see C79 for other programs). *)
Definition pointers_measured (P : program) : Prop := (exists t u, declared P t (CPointer u)) -> has_list_head P.
Definition legal (m : machine) (P : program) (L : N -> option (N * N)) : Prop := lawful m P L /\ pointers_measured P.
(** Nothing is called list_head. *)
Definition no_list_head (P : program) : Prop := forall t d, declared P t d -> c_name d <> Some (String.list_byte_of_string "list_head").
(** A typedef, a qualified or tagged version, or a variable of the type [u]. *)
Definition size_behind (P : program) (t u : N) : Prop :=
  exists d, declared P t d /\ match d with CTypedef _ v | CConst v | CVolatile v | CRestrict v | CTag _ v | CVariable _ v _ => v = u | _ => False end.
(** [t] is a pointer, or an array (of arrays ...) of pointers. *)
Inductive of_pointers (P : program) : N -> Prop :=
| op_pointer t u : declared P t (CPointer u) -> of_pointers P t
| op_behind t u : size_behind P t u -> of_pointers P u -> of_pointers P t
| op_array t e x n : declared P t (CArray e x n) -> of_pointers P e -> of_pointers P t.
(** What btfparse takes for the size of a pointer: half the size of the last type called list_head, if it is a struct. *)
Definition pointer_taken (P : program) (L : N -> option (N * N)) (w : N) : Prop :=
  exists h pk al n fs z, last_called P (String.list_byte_of_string "list_head") h /\ declared P h (CAggregate false pk al n fs) /\ c_size L h z /\ w = z / 2.
(** The sizes that follow from it. *)
Inductive taken_size (P : program) (L : N -> option (N * N)) : N -> N -> Prop :=
| tk_own t z : ~ of_pointers P t -> c_size L t z -> taken_size P L t z
| tk_pointer t u w : declared P t (CPointer u) -> pointer_taken P L w -> taken_size P L t w
| tk_behind t u z : size_behind P t u -> taken_size P L u z -> taken_size P L t z
| tk_array t e x n z : declared P t (CArray e x n) -> taken_size P L e z -> taken_size P L t (z * n).

(** ** What the compiler writes into the BTF file *)
(** What it may choose for each declaration: the char and boolean marks of an integer, the kind flag of an enumeration, struct or union (a struct with
    bitfields cannot be written without it), and how the values of an enumeration are written. *)
Record written := { w_char : bool; w_boolean : bool; w_flag : bool; w_value : str * Z -> integer_value }.
Definition describe (m : machine) (L : N -> option (N * N)) (x : written) (d : cdecl) : decl :=
  match d with
  | CInteger n s _ sg => DInt (Some n) s sg (w_char x) (w_boolean x) 0 (8 * s)
  | CFloating n s _ => DFloat (Some n) s
  | CEnumeration n s _ _ vs => DEnum n s (w_flag x) (map (fun v => (fst v, w_value x v)) vs)
  | CEnumeration64 n s _ _ vs => DEnum64 n s (w_flag x) (map (fun v => (fst v, w_value x v)) vs)
  | CPointer t => DPtr t
  | CArray e x n => DArray e x n
  | CTypedef n t => DTypedef (Some n) t
  | CConst t => DConst t
  | CVolatile t => DVolatile t
  | CRestrict t => DRestrict t
  | CTag n t => DTypeTag (Some n) t
  | CFunction n l t => DFunc n l t
  | CVariable n t l => DVar (Some n) t l
  | CSection n s vs => DDataSec (Some n) s vs
  | CMark n t c => DDeclTag (Some n) t c
  | CIncomplete n u => DFwd (Some n) u 0
  | CPrototype ps r => DFuncProto ps r
  | CAggregate u pk al n fs =>
      match layout_of_fields m L u pk al fs with
      | Some (ms, (s, _)) => if u then DUnion n s (w_flag x) ms else DStruct n s (w_flag x) ms
      | None => DFwd n u 0
      end
  end.
(** [img] is a BTF file for the program: it describes (Spec.v) a type for each declaration, in this order. Byte order, version, flags, reserved bits, and where and
    how the strings are stored can be anything. *)
Definition compiled (m : machine) (P : program) (L : N -> option (N * N)) (img : list Byte.byte) : Prop :=
  exists ts, file_describes img ts /\ Forall2 (fun d ty => exists x, view ty = Some (describe m L x d)) P ts.
(** Where btfparse runs, to load [img]: on a 64-bit target, or on a 32-bit target, if [img] does not reach the last MiB below 4 GiB. *)
Definition loadable (c : build) (img : list Byte.byte) : Prop := usize_bits c = 64 \/ (usize_bits c = 32 /\ len img <= 2 ^ 32 - 2 ^ 20).
(** One way to write it (the encoding is Encode.v). *)
Definition value_of (signed : bool) (v : Z) : integer_value := if signed then Signed v else Unsigned (Z.to_N v).
Definition usually (d : cdecl) : written :=
  let sg := match d with CEnumeration _ _ _ sg _ | CEnumeration64 _ _ _ sg _ => sg | _ => false end in
  {| w_char := false; w_boolean := false; w_value v := value_of sg (snd v);
     w_flag := match d with CAggregate _ _ _ _ fs => has_bitfields fs | _ => sg end |}.
Definition program_file (version flags : Byte.byte) (reserved : decl -> N) (en : endianness) (m : machine) (P : program) (L : N -> option (N * N)) : list Byte.byte :=
  encode_with version flags reserved en (map (fun d => describe m L (usually d) d) P).

(** ** Places *)
(** An object of type [u] at [o] takes the bit [k]. *)
Definition c_takes (L : N -> option (N * N)) (u : N) (o : offset) (k : N) : Prop :=
  match o with
  | ByteOffset b => exists s a, L u = Some (s, a) /\ 8 * b <= k < 8 * (b + s)
  | BitOffsetAndSize b w => b <= k < b + w
  end.
(** Alignments are powers of two and divide sizes, and nothing is packed. *)
Definition power (a : N) : Prop := exists k, a = 2 ^ k.
Definition usual (m : machine) (P : program) : Prop :=
  power (pointer_align m) /\
  forall t d, declared P t d -> match d with
    | CInteger _ s a _ | CFloating _ s a | CEnumeration _ s a _ _ | CEnumeration64 _ s a _ _ => power a /\ (a | s)
    | CAggregate _ pk al _ fs => pk = false /\ power al /\ Forall (fun f => power (f_align f)) fs
    | _ => True end.
