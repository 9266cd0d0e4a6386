(** Members of a class that look at the class they belong to: variants whose tag
    is another member (json_tagged_variant) and arrays whose size is another
    member (json_sized_array); and members that keep the text of the value
    (json_raw).  Same configuration as ValueModel. *)
From Coq Require Import List NArith ZArith Bool Arith.
From Verif Require Import Base PolicyModel IntModel Loop StrScanModel SkipModel ValueModel PathModel.
Import ListNotations.
Local Open Scope N_scope.

(** find_index: daw_json_parse_value.h:824-850, for a tag that is a member of a
    class.  [tag] reads the class that has the tag as its only member.  The state
    is that of the class, [class_first, class_last); the pointers may be null, as
    those of a skipped number are the decimal point and the exponent
    (daw_json_skip.h:219-310).  From null to a non null pointer there is more to
    read, the brace is looked for at null. *)
Definition find_index (tag : parser) (switch : val -> nat) (buf : list N) (p : ps) : res nat :=
  match cfirst p, clast p with
  | Some a, Some b =>
      let p2 := new_ps a b in
      ok <- is_at buf p2 c_lbrace ;;
      _ <- ensure ok InvalidClassStart ;;
      '(v, _) <- tag false buf p2 ;;
      match v with
      | VClass [y] => Ok (switch y)
      | _ => Fuel
      end
  | None, Some _ => UB
  | _, None => Err InvalidClassStart
  end.

(** parse_value_variant_tagged: daw_json_parse_value.h:852-860 *)
Definition parse_value_variant_tagged (tag : parser) (switch : val -> nat) (alts : list parser)
  (buf : list N) (p : ps) : res (val * ps) :=
  i <- find_index tag switch buf p ;;
  parse_visit i alts buf p.

(** find_range of the class up to the end of the state: daw_json_parse_name.h:202-214 *)
Definition find_in_class (g : cfg) (buf : list N) (a b : nat) (path : list N) : res (ps * bool) :=
  p <- trim_left_checked buf (new_ps a b) ;;
  match path with
  | [] => Ok (p, true)
  | _ => if has_more p then find_range2 g buf p path else Ok (p, true)
  end.

(** parse_value_sz_array: daw_json_parse_value.h:691-727.  The value stands for
    the size and the elements the constructor is called with.  The size is not
    compared, that is done for unchecked input only. *)
Definition parse_value_sz_array (g : cfg) (name : list N) (size : parser) (parse : parser)
  (buf : list N) (p : ps) : res (val * ps) :=
  match cfirst p with
  | None => UB
  | Some a =>
      '(p2, found) <- find_in_class g buf a (last p) name ;;
      _ <- ensure found TagMemberNotFound ;;
      '(sz, _) <- size false buf p2 ;;
      '(vs, p) <- parse_value_array parse buf p ;;
      match sz with
      | VInt z => Ok (VTuple [VInt (z mod 2^64); vs], p)
      | _ => Fuel
      end
  end.

(** parse_value_unknown: daw_json_parse_value.h:1160-1173 *)
Definition parse_value_unknown (g : cfg) (known : bool) (buf : list N) (p : ps) : res (val * ps) :=
  if known then Ok (VStr (view buf (first p) (last p)), p)
  else
    '(r, p) <- skip_value CNone true (c_ex g) (c_excl g) true buf p ;;
    Ok (VStr (view buf (first r) (last r)), p).

(** The types a member can have.  [exact] is about the class the tag is read
    with, as for intrusive variants. *)
Inductive mty : Type :=
| MPlain (t : ty)
| MTagged (exact : bool) (tag : list N) (t : ty) (switch : val -> nat) (alts : list ty)
| MSized (name : list N) (sz : ty) (t : ty)
| MRaw.

Definition mty_nullable (m : mty) : bool := match m with MPlain t => is_nullable t | _ => false end.

(** parse_value of these types: daw_json_parse_value.h:1176-1260 *)
Definition parse_mty (g : cfg) (m : mty) : parser :=
  fun known buf p =>
  match m with
  | MPlain t => parse_value g t known buf p
  | MTagged exact tag t switch alts =>
      parse_value_variant_tagged
        (parse_value_class g exact [mkmember tag (is_nullable t) (parse_value g t)]) switch
        (map (parse_value g) alts) buf p
  | MSized name sz t => parse_value_sz_array g name (parse_value g sz) (parse_value g t) buf p
  | MRaw => parse_value_unknown g known buf p
  end.

(** A class with such members: daw_json_parse_value.h:583-611 *)
Definition mmember (g : cfg) (m : list N * mty) : member :=
  mkmember (fst m) (mty_nullable (snd m)) (parse_mty g (snd m)).
Definition parse_mclass (g : cfg) (exact : bool) (mm : list (list N * mty)) : parser :=
  parse_value_class g exact (map (mmember g) mm).

(** from_json of such a class: daw_from_json.h:37-84 *)
Definition from_json_mclass (g : cfg) (verify exact : bool) (mm : list (list N * mty)) (doc : list N) : res val :=
  _ <- ensure (negb (length doc =? 0)%nat) EmptyJSONDocument ;;
  z <- rd doc (length doc - 1) ;;
  let l := if z =? 0 then (length doc - 1)%nat else length doc in
  '(v, p) <- parse_mclass g exact mm false doc (new_ps 0 l) ;;
  if verify then
    p <- trim_left_checked doc p ;;
    _ <- ensure (ps_empty p) InvalidEndOfValue ;;
    Ok v
  else Ok v.
