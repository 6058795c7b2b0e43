(** Loading texts into an INI object that already holds something: what is to be expected. *)
From Verif Require Import Base Ini Spec_Ini Spec_IniMulti IniBuf IniMulti.

(** [es]: the entries (with any comments) that LoadData finds in a text; [ml]: with SetMultiLine *)
Definition loads (ml : bool) (text : bytes) (es : list (bytes * option (bytes * bytes) * option bytes)) : Prop :=
  exists com l b, load_copy_ml ml text = Ok (com, l, b) /\ map fst es = map snd l.
(** what the text says; with SetMultiLine a text with a value of no lines is excluded *)
Definition says (ml : bool) (text : bytes) (items : list item) : Prop :=
  if ml then text_items_ml text = Some items else items = text_items text.
(** the last value of a key of a section, all of them, and whether the section is there *)
Definition value_in (items : list item) (sec key : bytes) : option bytes := last_value (flat_map (item_entries sec) items) key.
Definition values_in (items : list item) (sec key : bytes) : list bytes := map snd (filter (fun e => same_nameb (fst e) key) (flat_map (item_entries sec) items)).
Definition section_in (items : list item) (sec : bytes) : bool := existsb (item_opens sec) items.
(** the last of several texts that gives the key a value decides *)
Fixpoint last_text (texts : list (list item)) (sec key : bytes) : option bytes :=
  match texts with
  | [] => None
  | t :: r => match last_text r sec key with Some v => Some v | None => value_in t sec key end
  end.
