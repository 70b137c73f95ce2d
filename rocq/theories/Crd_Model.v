(** Model of the register of classes: Source/Core/BareMetal/L2Objects/ClassRegistryDatabase.cpp (D), with the list of LinkedListHolder.cpp (L).

    A text is the list of its characters, without the final zero. The libraries are an input: the classes that the static objects of a file register when it is opened
    for the first time (None: the file cannot be opened). The calls are sequential: the lock of D 253-259 is not modelled. LoadableLibrary never closes (LoadableLibrary.h 123-125). *)
From Verif Require Import Base.

Definition text := list Z.
(** An item of the register: the name of the class (ClassProperties), its identifier and the library that Find gave it (ClassRegistryItem.cpp 54-63) *)
Record item := Item { i_name : text; i_id : Z; i_library : option text }.
(** D 63-65: the list and the next identifier; and the files already opened *)
Record registry := Registry { items : list item; counter : Z; opened : list text }.
Definition no_classes : registry := Registry [] 0 [].

Fixpoint text_eqb (a b : text) : bool :=
  match a, b with [], [] => true | x :: a, y :: b => (x =? y) && text_eqb a b | _, _ => false end.

(** L 105-117: ListInsert at a position: after as many items as there are, at most *)
Definition list_insert (l : list item) (p : item) (index : Z) : list item :=
  let k := Z.to_nat (Z.min index (Z.of_nat (length l))) in firstn k l ++ p :: skipn k l.
(** D 71-85: Add *)
Definition add (r : registry) (name : text) : registry :=
  Registry (list_insert (items r) (Item name (counter r) None) (counter r)) (uwrap 32 (counter r + 1)) (opened r).

(** StringHelper::SearchString and SearchIndex with two colons: the position of the first *)
Fixpoint search (s : text) : option nat :=
  match s with
  | a :: t => match t with
              | b :: _ => if (a =? 58) && (b =? 58) then Some 0%nat else match search t with Some k => Some (S k) | None => None end
              | [] => None
              end
  | [] => None
  end.
(** D 94-108: the name of the library, cut at 128 characters *)
Definition library_part (s : text) : text :=
  firstn (Nat.min (match search s with Some k => k | None => length s end) 128) s.
(** D 109-111: the name of the class *)
Definition class_part (s : text) : text := match search s with Some k => skipn (k + 2) s | None => s end.

(** D 118-131, 169-183: the position of the first item with the name *)
Fixpoint position (l : list item) (name : text) : option nat :=
  match l with
  | [] => None
  | p :: l => if text_eqb (i_name p) name then Some 0%nat else match position l name with Some k => Some (S k) | None => None end
  end.
(** LoadableLibrary::Open (Environment/Linux/LoadableLibrary.cpp 61-83): the static objects of the file register their classes, once *)
Definition open (libs : text -> option (list text)) (r : registry) (file : text) : bool * registry :=
  match libs file with
  | None => (false, r)
  | Some cs => if existsb (text_eqb file) (opened r) then (true, r)
               else let r := fold_left add cs r in (true, Registry (items r) (counter r) (file :: opened r))
  end.
(** Environment/Linux/GeneralDefinitions.h 79: .so, .gam, .drv *)
Definition extensions : list text := [[46; 115; 111]; [46; 103; 97; 109]; [46; 100; 114; 118]].
(** D 152-163: the first extension with which the file opens *)
Fixpoint open_any (libs : text -> option (list text)) (r : registry) (dll : text) (exts : list text) : option text * registry :=
  match exts with
  | [] => (None, r)
  | x :: exts => let file := dll ++ firstn 4 x in
                 match open libs r file with (true, r) => (Some file, r) | (false, r) => open_any libs r dll exts end
  end.
(** D 176-178: SetLoadableLibrary on the item found *)
Fixpoint set_library (l : list item) (k : nat) (file : text) : list item :=
  match l, k with
  | [], _ => []
  | p :: l, O => Item (i_name p) (i_id p) (Some file) :: l
  | p :: l, S k => p :: set_library l k file
  end.
(** D 87-196: Find; the result is the position of the item *)
Definition find_class (libs : text -> option (list text)) (r : registry) (s : text) : option nat * registry :=
  match position (items r) (class_part s) with
  | Some k => (Some k, r)
  | None =>
      match open_any libs r (library_part s) extensions with
      | (None, r) => (None, r)
      | (Some file, r) => match position (items r) (class_part s) with
                          | Some k => (Some k, Registry (set_library (items r) k file) (counter r) (opened r))
                          | None => (None, r)
                          end
      end
  end.
(** D 240-250: Peek *)
Definition peek (r : registry) (k : Z) : option item := if k <? 0 then None else nth_error (items r) (Z.to_nat k).
