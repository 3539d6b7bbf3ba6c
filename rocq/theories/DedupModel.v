(** De-duplication of styles and regions.

    Source: ebu_tt_live/node/deduplicator.py 51-222: remove_duplication,
    CollateUniqueVals, AppendNewElements, ReplaceNone, ComparableElement and
    ReplaceStylesAndRegions.  The rest of the node, process_document, is in
    NodeModel.v.

    Left out: the metadata children of styles and regions, which the code does
    not look at; the print in line 58; document.validate() (line 48). *)

From Coq Require Import List ZArith String Ascii Bool.
From Verif Require Import Digits IdModel TimingModel StyleModel SegmentModel.
Import ListNotations.
Open Scope Z_scope.
Local Open Scope string_scope.

(** A style or a region: xml:id, the style attribute, the values of the other
    attributes of its type (ebutt_live.xsd 71-90 and 117-138) in a fixed order,
    None for one that is absent, and the attributes of other namespaces as
    (namespace, local name, value) in the order wildcardAttributeMap gives them.
    All are strings: the schema has no other types for them. *)
Record el := mkEl {
  x_id : string; x_refs : option (list string); x_vals : list (option string);
  x_wild : list (string * string * string) }.

(** The head, whose styling and layout may be absent, and the body. *)
Record ddoc := mkDdoc {
  dd_styles : option (list el); dd_regions : option (list el); dd_body : option bodyd }.

(** What raises: a reference for which the dictionaries give None, which is then
    assigned into the list of references (what PyXB makes of it is not
    modelled); del outside the list; str of text that is not ASCII. *)
Inductive derr := NoneRef (i : string) | IndexErr | NonAscii.
Inductive dres (A : Type) := DOk (a : A) | DErr (e : derr).
Arguments DOk {A} a. Arguments DErr {A} e.
Definition dbind {A B} (r : dres A) (f : A -> dres B) : dres B :=
  match r with DOk a => f a | DErr e => DErr e end.

(** What belongs to Python and PyXB and not to this code: the hash of a string
    (line 153), str of a list of references (line 145), and the order in which a
    dictionary is iterated (line 107). *)
Record python := mkPython {
  py_hash : string -> Z; py_show : list string -> string; py_order : list (Z * el) -> list (Z * el) }.

(** Dictionaries whose keys are hashes; d[k] = v. *)
Fixpoint zget {A} (d : list (Z * A)) (k : Z) : option A :=
  match d with
  | [] => None
  | (j, x) :: r => if Z.eqb k j then Some x else zget r k
  end.
Definition zset {A} (d : list (Z * A)) (k : Z) (v : A) : list (Z * A) :=
  (k, v) :: filter (fun p => negb (Z.eqb (fst p) k)) d.

(** new_id_dict.get(old_id_dict.get(i)); nothing is stored under None. *)
Definition new_id (old : list (string * Z)) (new : list (Z * string)) (i : string) : option string :=
  match dict_get old i with Some h => zget new h | None => None end.

(** Lines 115-124. *)
Definition replace_none (v : option string) : string := match v with Some s => s | None => "|" end.

Fixpoint is_ascii (s : string) : bool :=
  match s with
  | EmptyString => true
  | String c r => (N_of_ascii c <? 128)%N && is_ascii r
  end.

(** Lines 142-151: the string that is hashed.  The style attribute is put
    first; where it really comes among the sorted names makes no difference to
    what is proved. *)
Definition values (py : python) (e : el) : list string :=
  match x_refs e with Some l => py_show py l | None => "|" end :: map replace_none (x_vals e).
Fixpoint wild_code (w : list (string * string * string)) : string :=
  match w with
  | [] => ""
  | (n, l, v) :: r => n ++ "%" ++ l ++ "%" ++ v ++ wild_code r
  end.
Fixpoint with_marks (l : list string) : string :=
  match l with [] => "" | v :: r => v ++ "%" ++ with_marks r end.
Definition code (py : python) (e : el) : string := with_marks (values py e) ++ wild_code (x_wild e).

(** Lines 131-153, ComparableElement. *)
Definition my_hash (py : python) (e : el) : dres Z :=
  if forallb is_ascii (values py e) then DOk (py_hash py (code py e)) else DErr NonAscii.

(** Lines 86-91. *)
Fixpoint map_ids (f : string -> option string) (l : list string) : dres (list string) :=
  match l with
  | [] => DOk []
  | i :: r => match f i with
              | Some j => dbind (map_ids f r) (fun r' => DOk (j :: r'))
              | None => DErr (NoneRef i)
              end
  end.
Definition map_own (f : string -> option string) (e : el) : dres el :=
  match x_refs e with
  | None => DOk e
  | Some l => dbind (map_ids f l) (fun l' => DOk (mkEl (x_id e) (Some l') (x_vals e) (x_wild e)))
  end.

(** Lines 84-99, CollateUniqueVals. *)
Fixpoint collate (py : python) (new : list (Z * string)) (l : list el) (old : list (string * Z))
  (hd : list (Z * el)) : dres (list (string * Z) * list (Z * el)) :=
  match l with
  | [] => DOk (old, hd)
  | e :: r =>
      dbind (map_own (new_id old new) e) (fun e' =>
      dbind (my_hash py e') (fun h =>
      collate py new r ((x_id e', h) :: old) (zset hd h e')))
  end.

(** Lines 107-113, AppendNewElements: the elements appended and new_id_dict.
    [is] on the identifiers is read as equality; the identifiers of a document
    differ from one another. *)
Definition append_new_elements (py : python) (l : list el) (hd : list (Z * el)) (new : list (Z * string))
  : list el * list (Z * string) :=
  let items := py_order py hd in
  (flat_map (fun p => map (fun _ => snd p) (filter (fun o => String.eqb (x_id o) (x_id (snd p))) l)) items,
   fold_left (fun n p => zset n (fst p) (x_id (snd p))) items new).

(** Lines 56-63 and 65-71, for one of styling and layout. *)
Definition section (py : python) (l : option (list el)) (old : list (string * Z)) (new : list (Z * string))
  (hd : list (Z * el)) : dres (option (list el) * (list (string * Z) * list (Z * string) * list (Z * el))) :=
  match l with
  | None => DOk (None, (old, new, hd))
  | Some l =>
      dbind (collate py new l old hd) (fun s =>
      let '(old', hd') := s in
      let '(out, new') := append_new_elements py l hd' new in
      DOk (Some out, (old', new', hd')))
  end.

(** del l[k] and l[k] = v. *)
Fixpoint del (k : nat) (l : list string) : dres (list string) :=
  match l, k with
  | [], _ => DErr IndexErr
  | _ :: r, O => DOk r
  | x :: r, S k' => dbind (del k' r) (fun r' => DOk (x :: r'))
  end.
Fixpoint put (k : nat) (v : string) (l : list string) : dres (list string) :=
  match l, k with
  | [], _ => DErr IndexErr
  | _ :: r, O => DOk (v :: r)
  | x :: r, S k' => dbind (put k' v r) (fun r' => DOk (x :: r'))
  end.

(** Lines 196-208, the loop over the references of an element, from index
    [i] - 1 down to 0; [seen] is id_to_index_dict. *)
Fixpoint replace (f : string -> option string) (i : nat) (v : list string) (seen : list (string * nat))
  : dres (list string) :=
  match i with
  | O => DOk v
  | S j =>
      match nth_error v j with
      | None => DErr IndexErr
      | Some r =>
          match f r with
          | None => DErr (NoneRef r)
          | Some n =>
              dbind (match dict_get seen n with Some k => del k v | None => DOk v end) (fun v1 =>
              dbind (put j n v1) (fun v2 => replace f j v2 ((n, j) :: seen)))
          end
      end
  end.
Definition replace_style (f : string -> option string) (s : option (list string)) : dres (option (list string)) :=
  match s with
  | None => DOk None
  | Some l => dbind (replace f (List.length l) l []) (fun l' => DOk (Some l'))
  end.

(** Lines 212-217: assigning None to the attribute removes it. *)
Definition replace_region (f : string -> option string) (r : option string) : option string :=
  match r with Some i => f i | None => None end.

(** Lines 186-220 on every element (pyxb_utils.py 92-143). *)
Fixpoint replace_node (f : string -> option string) (n : node) : dres node :=
  match n with
  | Text s => DOk (Text s)
  | Br => DOk Br
  | Node k i region style b e kids =>
      dbind (replace_style f style) (fun style' =>
      dbind ((fix go (l : list node) : dres (list node) :=
                match l with
                | [] => DOk []
                | x :: r => dbind (replace_node f x) (fun x' => dbind (go r) (fun r' => DOk (x' :: r')))
                end) kids) (fun kids' =>
      DOk (Node k i (replace_region f region) style' b e kids')))
  end.
Fixpoint replace_nodes (f : string -> option string) (l : list node) : dres (list node) :=
  match l with
  | [] => DOk []
  | x :: r => dbind (replace_node f x) (fun x' => dbind (replace_nodes f r) (fun r' => DOk (x' :: r')))
  end.
Definition replace_body (f : string -> option string) (b : bodyd) : dres bodyd :=
  dbind (replace_style f (bd_style b)) (fun s =>
  dbind (replace_nodes f (bd_kids b)) (fun ks => DOk (mkBodyd s (bd_begin b) (bd_end b) (bd_dur b) ks))).
Fixpoint replace_els (f : string -> option string) (l : list el) : dres (list el) :=
  match l with
  | [] => DOk []
  | e :: r => dbind (replace_style f (x_refs e)) (fun s =>
              dbind (replace_els f r) (fun r' => DOk (mkEl (x_id e) s (x_vals e) (x_wild e) :: r')))
  end.
Definition opt_map {A} (f : A -> dres A) (o : option A) : dres (option A) :=
  match o with None => DOk None | Some a => dbind (f a) (fun a' => DOk (Some a')) end.

(** Lines 51-77, remove_duplication. *)
Definition remove_duplication (py : python) (d : ddoc) : dres ddoc :=
  dbind (section py (dd_styles d) [] [] []) (fun s =>
  let '(styles, (old, new, hd)) := s in
  dbind (section py (dd_regions d) old new hd) (fun s2 =>
  let '(regions, (old2, new2, _)) := s2 in
  let f := new_id old2 new2 in
  dbind (opt_map (replace_els f) styles) (fun styles' =>
  dbind (opt_map (replace_els f) regions) (fun regions' =>
  dbind (opt_map (replace_body f) (dd_body d)) (fun body' =>
  DOk (mkDdoc styles' regions' body')))))).
