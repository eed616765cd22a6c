(** Model of how cobc builds the data hierarchy from level numbers
    (cb_build_field_tree, cobc/field.c 77-246), and how it resolves qualified
    names (cb_ref, cobc/tree.c 2072-2225).
    Names are the words of the program: lookup_word (tree.c 144-170) makes one
    word of all spellings of a name, so that cobc_casecmp of two names of the
    program is the comparison of words.
    Not modelled: level 66 and 78, relax-level-hierarchy (off by default),
    nested programs and GLOBAL, INDEXED BY names. *)
From Verif Require Import Base.
Local Open Scope Z_scope.

Definition name := Z.
Record node := mkNode { n_level : Z; n_name : name; n_parent : option nat;
                        n_child : option nat; n_sister : option nat }.

Definition nnil : node := mkNode 0 0 None None None.
Definition get (ns : list node) (i : nat) : node := nth i ns nnil.
Fixpoint put (ns : list node) (i : nat) (x : node) : list node :=
  match ns, i with
  | [], _ => []
  | _ :: r, O => x :: r
  | a :: r, S k => a :: put r k x
  end.
Definition set_child (ns : list node) (i c : nat) : list node :=
  let x := get ns i in put ns i (mkNode (n_level x) (n_name x) (n_parent x) (Some c) (n_sister x)).
Definition set_sister (ns : list node) (i c : nat) : list node :=
  let x := get ns i in put ns i (mkNode (n_level x) (n_name x) (n_parent x) (n_child x) (Some c)).

(** cb_field_founder, tree.c 1743-1750; the fuel is enough since parents come
    before their children. *)
Fixpoint founder (fuel : nat) (ns : list node) (i : nat) : nat :=
  match fuel with
  | O => i
  | S k => match n_parent (get ns i) with None => i | Some p => founder k ns p end
  end.
(** 203-211: the ancestor of [i] with level [lv]. *)
Fixpoint climb (fuel : nat) (ns : list node) (i : nat) (lv : Z) : option nat :=
  match fuel with
  | O => None
  | S k => match n_parent (get ns i) with
           | None => None
           | Some p => if n_level (get ns p) =? lv then Some p else climb k ns p lv
           end
  end.

Definition top (lv : Z) : bool := (lv =? 1) || (lv =? 77).

(** cb_build_field_tree; the new field is number [length ns].  Ok None: an
    error is reported. *)
Definition add_field (ns : list node) (last : option nat) (lv : Z) (nm : name)
  : outcome (option (list node)) :=
  let f := length ns in
  let new p := mkNode lv nm p None None in
  if (lv =? 66) || (lv =? 78) then NotModelled
  else if negb ((lv =? 77) || (lv =? 88) || ((1 <=? lv) && (lv <=? 49))) then Ok None
  else match last with
  | None => if top lv then Ok (Some (ns ++ [new None])) else Ok None
  | Some l0 =>
    if (n_level (get ns l0) =? 77) && negb (top lv) && negb (lv =? 88) then Ok None
    else match (if n_level (get ns l0) =? 88 then n_parent (get ns l0) else Some l0) with
    | None => UB
    | Some l =>
      let same p := Ok (Some (set_sister ns p f ++ [new (n_parent (get ns p))])) in
      if top lv then Ok (Some (set_sister ns (founder f ns l) f ++ [new None]))
      else if lv =? 88 then Ok (Some (ns ++ [new (Some l)]))
      else if n_level (get ns l) <? lv then Ok (Some (set_child ns l f ++ [new (Some l)]))
      else if n_level (get ns l) =? lv then same l
      else match climb f ns l lv with Some p => same p | None => Ok None end
    end
  end.

(** The entries of a section one after the other. *)
Fixpoint add_fields (ns : list node) (last : option nat) (es : list (Z * name))
  : outcome (option (list node)) :=
  match es with
  | [] => Ok (Some ns)
  | (lv, nm) :: r =>
    do x <- add_field ns last lv nm;
    match x with
    | None => Ok None
    | Some ns' => add_fields ns' (Some (length ns)) r
    end
  end.
Definition build (es : list (Z * name)) : outcome (option (list node)) := add_fields [] None es.

(** The children of an item as the rest of the compiler walks them. *)
Fixpoint sisters (fuel : nat) (ns : list node) (o : option nat) : list nat :=
  match fuel, o with
  | S k, Some i => i :: sisters k ns (n_sister (get ns i))
  | _, _ => []
  end.
Definition children (ns : list node) (i : nat) : list nat := sisters (length ns) ns (n_child (get ns i)).

(** *** References, tree.c 2072-2225 *)

(** What a word can be defined as: an item of a record description (which
    section, which number), a file, or something else. *)
Inductive thing := TItem (s i : nat) | TFile (f : nat) | TOther (k : nat).
(** A section: the file it describes, and the fields. *)
Definition section := (option nat * list node)%type.

(** The definitions in the program, in order; items of a word: [defs] of its name. *)
Record prog := mkProg { g_secs : list section; g_words : list (name * thing) }.
Definition items (g : prog) (n : name) : list thing :=
  map snd (filter (fun x => fst x =? n) (g_words g)).

Fixpoint by_parents (fuel : nat) (ns : list node) (p : option nat) (c : list name) : list name :=
  match fuel, p with
  | S k, Some i =>
    let c' := match c with q :: r => if q =? n_name (get ns i) then r else c | [] => [] end in
    by_parents k ns (n_parent (get ns i)) c'
  | _, _ => c
  end.
Definition sec (g : prog) (s : nat) : section := nth s (g_secs g) (None, []).

(** 2100-2154: what is left of the qualifiers after those that fit. *)
Definition left_over (g : prog) (v : thing) (c : list name) : list name :=
  match v with
  | TItem s i =>
    let ns := snd (sec g s) in
    let c1 := by_parents (length ns) ns (n_parent (get ns i)) c in
    match c1 with
    | [q] => match items g q with
             | [TFile f] => match fst (sec g s) with
                            | Some f' => if Nat.eqb f f' then [] else c1
                            | None => c1
                            end
             | _ => c1
             end
    | _ => c1
    end
  | _ => c
  end.

Inductive found := Found (v : thing) | Undefined | Ambiguous.
(** The loop 2096-2168 with candidate and ambiguous. *)
Fixpoint scan (g : prog) (vs : list thing) (c : list name) (cand : option thing) (amb : bool) : found :=
  match vs with
  | [] => match cand with
          | None => Undefined
          | Some v => if amb then Ambiguous else Found v
          end
  | v :: r =>
    match left_over g v c with
    | [] => match cand with
            | None => scan g r c (Some v) amb
            | Some _ => scan g r c cand true
            end
    | _ => scan g r c cand amb
    end
  end.
Definition resolve (g : prog) (n : name) (c : list name) : found := scan g (items g n) c None false.

(** *** Labels, 2126-2150 *)
(** A paragraph or section: its name and the section it belongs to (its name
    is found by [labels]). *)
Record label := mkLabel { l_name : name; l_section : option nat }.
Definition lget (ls : list label) (i : nat) : label := nth i ls (mkLabel 0 None).
Fixpoint label_scan (ls : list label) (vs : list nat) (c : list name) (cur : option nat)
    (cand : option nat) (amb : bool) : found :=
  match vs with
  | [] => match cand with
          | None => Undefined
          | Some v => if amb then Ambiguous else Found (TOther v)
          end
  | v :: r =>
    let s := l_section (lget ls v) in
    let own := match cur, s with Some a, Some b => Nat.eqb a b | _, _ => false end in
    match c with
    | [] =>
      if own then
        if existsb (fun u => match l_section (lget ls u), cur with
                             | Some a, Some b => Nat.eqb a b | _, _ => false end) r
        then Ambiguous else Found (TOther v)
      else match cand with
           | None => label_scan ls r c cur (Some v) amb
           | Some _ => label_scan ls r c cur cand true
           end
    | [q] =>
      if match s with Some b => q =? l_name (lget ls b) | None => false end then
        match cand with
        | None => label_scan ls r c cur (Some v) amb
        | Some _ => label_scan ls r c cur cand true
        end
      else label_scan ls r c cur cand amb
    | _ => label_scan ls r c cur cand amb
    end
  end.
(** GO TO or PERFORM n [OF q] in section [cur]. *)
Definition label_ref (ls : list label) (n : name) (c : list name) (cur : option nat) : found :=
  label_scan ls (filter (fun i => l_name (lget ls i) =? n) (seq 0 (length ls))) c cur None false.

(** A program: its sections (the file described, the entries) and its other
    names; data names are defined in the order of the source. *)
Fixpoint build_all (l : list (option nat * list (Z * name))) : outcome (option (list section)) :=
  match l with
  | [] => Ok (Some [])
  | (f, es) :: r =>
    do x <- build es;
    match x with
    | None => Ok None
    | Some ns => do y <- build_all r;
                 match y with None => Ok None | Some ss => Ok (Some ((f, ns) :: ss)) end
    end
  end.
Fixpoint sec_words (s i : nat) (es : list (Z * name)) : list (name * thing) :=
  match es with [] => [] | (_, n) :: r => (n, TItem s i) :: sec_words s (S i) r end.
Fixpoint data_words (s : nat) (l : list (option nat * list (Z * name))) : list (name * thing) :=
  match l with [] => [] | (_, es) :: r => sec_words s 0 es ++ data_words (S s) r end.
Definition compile (l : list (option nat * list (Z * name))) (others : list (name * thing))
  : outcome (option prog) :=
  do x <- build_all l;
  match x with None => Ok None | Some ss => Ok (Some (mkProg ss (others ++ data_words 0 l))) end.
(** procedure_name and label, parser.y 6968-6988.  The rule for a numeric name
    qualified by a numeric name has no action: its value is that of $1. *)
Inductive proc_name := PWord (n : name) (c : list name) | PNumber (n : name) (c : option name).
Definition proc_ref (ls : list label) (p : proc_name) (cur : option nat) : found :=
  match p with
  | PWord n c => label_ref ls n c cur
  | PNumber n _ => label_ref ls n [] cur
  end.
