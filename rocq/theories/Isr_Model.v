(** Types described by the configuration: IntrospectionEntry.cpp, Introspection.cpp, IntrospectionStructure.cpp (Initialise)
    and the part of ClassRegistryDatabase they use.
    Simplifications: texts are lists of character codes without the terminating NUL (reading at the end of the list gives NUL, reading
    after it is undefined); memory never runs out; every structure is initialised by an object of its own, used once; names of types do
    not contain a colon (no dynamic library is loaded). *)
From Verif Require Import Base IntText_Model.

Definition text := list Z.
Definition uint32_t := ITy 32 false.
Definition ch_open := 91. Definition ch_close := 93. Definition ch_star := 42. Definition ch_C := 67.

(** ** One member *)

(** IntrospectionEntry.cpp 83-105: the loops over the modifiers. [inside] is lastDim between the brackets, [ds] the dimensions stored.
    A bracket which is never closed makes the code step over the terminating NUL and read after it: None. *)
Fixpoint scan (t : text) (inside : option Z) (ds : list Z) {struct t} : option (list Z) :=
  match t with
  | [] => match inside with None => Some ds | Some _ => None end
  | c :: r =>
    match inside with
    | Some last =>
      if c =? ch_close then scan r None (ds ++ [last])
      else
        let digit := c - ch_0 in
        let last := uwrap 32 (last * 10) in
        scan r (Some (if (0 <=? digit) && (digit <=? 9) then uwrap 32 (last + digit) else last)) ds
    | None =>
      if (length ds <? 3)%nat then (if c =? ch_open then scan r (Some 0) ds else scan r None ds) else Some ds
    end
  end.

(** IntrospectionEntry.h 198-240: a described member; [stored] are the dimensions found (dimensionSize[0 .. numberOfDimensions-1]) *)
Record entry := Entry { memberName : text; typeName : text; modifiers : text; size : Z; byteOffset : Z; stored : list Z }.

(** IntrospectionEntry.cpp 63-107: the constructor *)
Definition make_entry (name type mods : text) (sizeIn offsetIn : Z) : option entry :=
  match scan mods None [] with Some ds => Some (Entry name type mods sizeIn offsetIn ds) | None => None end.

(** IntrospectionEntry.cpp 207-209: GetNumberOfDimensions *)
Definition get_number_of_dimensions (e : entry) : Z := Z.of_nat (length (stored e)).
(** IntrospectionEntry.cpp 203-205: GetNumberOfElements; dimensionSize starts as 1, 1, 1 (76-78) *)
Definition get_number_of_elements (e : entry) (dimension : Z) : Z :=
  nth (Z.to_nat (if dimension <? 3 then dimension else 2)) (stored e) 1.
(** IntrospectionEntry.cpp 189-201: GetMemberPointerLevel *)
Definition get_pointer_level (e : entry) : Z :=
  fold_left (fun n c => if c =? ch_star then n + 1 else n) (modifiers e) 0.
(** IntrospectionEntry.cpp 166-187: IsConstant; the character after the star of the level asked *)
Fixpoint constant_after (t : text) (ptrCnt ptrLevel : Z) : option bool :=
  match t with
  | [] => None
  | c :: r =>
    let ptrCnt := if c =? ch_star then ptrCnt + 1 else ptrCnt in
    if ptrCnt =? ptrLevel then Some (match r with d :: _ => d =? ch_C | [] => false end) else constant_after r ptrCnt ptrLevel
  end.
Definition is_constant (e : entry) (ptrLevel : Z) : bool :=
  let first := match modifiers e with c :: _ => c =? ch_C | [] => false end in
  if 0 <? ptrLevel then match constant_after (modifiers e) 0 ptrLevel with Some b => b | None => first end else first.

(** ** The registered types *)

(** Introspection.cpp 46-69: the members and the size of the class *)
Record layout := Layout { members : list entry; class_size : Z }.
(** A ClassRegistryItem: of the application (perhaps with no introspection), or a ClassRegistryItemConfigurationStructureLoader
    (IntrospectionStructure.cpp 41-61) *)
Inductive item := Native (l : option layout) | Configured (l : layout).
Definition introspection (i : item) : option layout := match i with Native l => l | Configured l => Some l end.
(** ClassRegistryDatabase: the items in the order of their registration *)
Definition registry := list (text * item).
Definition text_eqb (a b : text) : bool := if list_eq_dec Z.eq_dec a b then true else false.
(** ClassRegistryDatabase.cpp Find (name without a library): the first item of that name *)
Fixpoint find (g : registry) (name : text) : option item :=
  match g with [] => None | (n, i) :: r => if text_eqb n name then Some i else find r name end.
(** IntrospectionStructure.cpp 303-304: the loader found gets the new introspection *)
Fixpoint update (g : registry) (name : text) (i : item) : registry :=
  match g with [] => [] | (n, j) :: r => if text_eqb n name then (n, i) :: r else (n, j) :: update r name i end.

(** TypeDescriptor.cpp 55-71: basicTypeInfo with numberOfBits / 8 (pointers of 64 bits) *)
Definition basic_types : list (text * Z) :=
  [([115;116;114;105;110;103], 8) (* string *); ([105;110;116;56], 1) (* int8 *); ([105;110;116;49;54], 2) (* int16 *);
   ([105;110;116;51;50], 4) (* int32 *); ([105;110;116;54;52], 8) (* int64 *); ([117;105;110;116;56], 1) (* uint8 *);
   ([117;105;110;116;49;54], 2) (* uint16 *); ([117;105;110;116;51;50], 4) (* uint32 *); ([117;105;110;116;54;52], 8) (* uint64 *);
   ([98;111;111;108], 1) (* bool *); ([102;108;111;97;116;51;50], 4) (* float32 *); ([102;108;111;97;116;54;52], 8) (* float64 *);
   ([99;104;97;114;56], 1) (* char8 *); ([118;111;105;100], 0) (* void *)].
Fixpoint assoc (l : list (text * Z)) (name : text) : option Z :=
  match l with [] => None | (n, s) :: r => if text_eqb n name then Some s else assoc r name end.

(** ** IntrospectionStructure::Initialise *)

(** The leaf NumberOfElements of a member (IntrospectionStructure.cpp 142-174): absent, not readable as numbers, or the numbers read
    (a scalar reads as the list of that one number: lines 150-161 fall back from the vector to the scalar) *)
Inductive elements := Absent | Unreadable | Values (l : list Z).
(** A child of the configuration of the type: a leaf such as Class (MoveRelative fails: ignored), or a node *)
Inductive child := Leaf | Node (name : text) (type : option text) (number : elements).

(** IntrospectionStructure.cpp 143-174: numberOfElements and numberOfDimensions *)
Definition dimensions (n : elements) : option (list Z) :=
  match n with
  | Absent => Some []
  | Unreadable => None
  | Values [x] => if x =? 1 then Some [] else Some [x]
  | Values l => Some l
  end.

(** IntrospectionStructure.cpp 177-181: modifiers.Printf("[%d]", numberOfElements[nd]) for every dimension *)
Fixpoint print_modifiers (ds : list Z) : option text :=
  match ds with
  | [] => Some []
  | d :: r =>
    match int_to_stream_decimal uint32_t d 0 false false false, print_modifiers r with
    | Some s, Some t => Some (ch_open :: s ++ ch_close :: t)
    | _, _ => None
    end
  end.

(** IntrospectionStructure.cpp 201-217: memberSize; an unknown type, or one with no introspection, has size 0 *)
Definition member_size (g : registry) (type : text) : Z :=
  match assoc basic_types type with
  | Some s => s
  | None => match find g type with
            | Some i => match introspection i with Some l => class_size l | None => 0 end
            | None => 0
            end
  end.

(** IntrospectionStructure.cpp 224-232: totalElements *)
Definition total_elements (ds : list Z) : Z :=
  let p := fold_left (fun acc d => if 0 <? d then uwrap 32 (acc * d) else acc) ds 1 in if p =? 0 then 1 else p.

(** IntrospectionStructure.cpp 127-248: the loop over the children. None: something undefined; Some None: ok is false *)
Fixpoint build (g : registry) (cs : list child) (totalSize : Z) : option (option (list entry * Z)) :=
  match cs with
  | [] => Some (Some ([], totalSize))
  | Leaf :: r => build g r totalSize
  | Node name type number :: r =>
    match type, dimensions number with
    | Some type, Some ds =>
      match print_modifiers ds with
      | None => None
      | Some mods =>
        let memberSize := member_size g type in
        match make_entry name type mods memberSize totalSize with
        | None => None
        | Some e =>
          match build g r (uwrap 32 (totalSize + uwrap 32 (memberSize * total_elements ds))) with
          | Some (Some (es, total)) => Some (Some (e :: es, total))
          | other => other
          end
        end
      end
    | _, _ => Some None
    end
  end.

(** IntrospectionStructure.cpp 123-316: Initialise of a fresh object of that name; the result and the registry after it.
    250-255: no byte at all is refused; 256-314: a new item, or the old one updated if the configuration made it *)
Definition initialise (g : registry) (name : text) (cs : list child) : option (bool * registry) :=
  match build g cs 0 with
  | None => None
  | Some None => Some (false, g)
  | Some (Some (es, total)) =>
    if 0 <? total then
      match find g name with
      | None => Some (true, g ++ [(name, Configured (Layout es total))])
      | Some (Configured _) => Some (true, update g name (Configured (Layout es total)))
      | Some (Native _) => Some (false, g)
      end
    else Some (false, g)
  end.

(** A history: types configured one after the other *)
Fixpoint run (g : registry) (h : list (text * list child)) : option (list bool * registry) :=
  match h with
  | [] => Some ([], g)
  | (name, cs) :: r =>
    match initialise g name cs with
    | None => None
    | Some (b, g') => match run g' r with Some (bs, g'') => Some (b :: bs, g'') | None => None end
    end
  end.
