(** Option words: several small enums packed into one [json_options_t].

    An option list is the list of its options' widths in bits
    ([json_option_bits_width]); an option is its position in the list.  The
    code computes all of this at compile time; a shift by 32 or more is then a
    compile error and is the outcome [UB] here. *)
From Coq Require Import List NArith Bool.
From Verif Require Import Base.
Import ListNotations.
Local Open Scope N_scope.

(** [unsigned] / [json_options_t] are 32 bits wide
    (impl/daw_json_option_bits.h:24). *)
Definition word_bits : N := 32.

(** [x << k] on a 32 bit [unsigned]. *)
Definition shl32 (x k : N) : res N :=
  if k <? word_bits then Ok (N.shiftl x k mod 2 ^ word_bits) else UB.

(** [x >> k] on a 32 bit [unsigned]. *)
Definition shr32 (x k : N) : res N :=
  if k <? word_bits then Ok (N.shiftr x k) else UB.

(** [~x] on a 32 bit [unsigned]. *)
Definition not32 (x : N) : N := N.lnot x word_bits.

(** [option_bits_start_impl::do_step]/[calc]
    (impl/daw_json_option_bits.h:38-58): the widths of the options before
    [idx] are summed; the others contribute 0. *)
Definition do_step (ws : list N) (idx pos : nat) : N :=
  if Nat.leb idx pos then 0 else nth pos ws 0.
Definition option_bits_start (ws : list N) (idx : nat) : N :=
  fold_right N.add 0 (map (do_step ws idx) (seq 0 (length ws))).

(** [json_option_bits_width<Option>] *)
Definition width (ws : list N) (idx : nat) : N := nth idx ws 0.

(** [(1U << json_option_bits_width<Option>)-1U] *)
Definition ones (w : N) : res N :=
  (p <- shl32 1 w ;; Ok ((p + (2 ^ word_bits - 1)) mod 2 ^ word_bits))%res.

(** [set_bits] for one option (impl/daw_json_option_bits.h:149-160; the same
    text in impl/daw_json_parse_options_impl.h:187-207 and
    impl/daw_json_serialize_policy_details.h:190-211). *)
Definition set_bits1 (ws : list N) (value : N) (idx : nat) (e : N) : res N :=
  (mask <- ones (width ws idx) ;;
   new_bits <- shl32 (N.land e mask) (option_bits_start ws idx) ;;
   m <- shl32 mask (option_bits_start ws idx) ;;
   Ok (N.lor (N.land value (not32 m)) new_bits))%res.

(** [set_bits] with a pack of options: first to last
    (impl/daw_json_option_bits.h:161-165, and the two copies). *)
Fixpoint set_bits (ws : list N) (value : N) (es : list (nat * N)) : res N :=
  match es with
  | [] => Ok value
  | (i, e) :: r => (v <- set_bits1 ws value i e ;; set_bits ws v r)%res
  end.

(** [set_bits_in] (impl/daw_json_option_bits.h:128-140 and
    impl/daw_json_serialize_policy_details.h:177-188): the mask that is
    cleared is not shifted. *)
Definition set_bits_in (ws : list N) (value : N) (idx : nat) (e : N) : res N :=
  (mask <- ones (width ws idx) ;;
   new_bits <- shl32 (N.land e mask) (option_bits_start ws idx) ;;
   Ok (N.lor (N.land value (not32 mask)) new_bits))%res.

(** [set_bits_for] (impl/daw_json_option_bits.h:98-105,
    impl/daw_json_parse_options_impl.h:209-216,
    impl/daw_json_serialize_policy_details.h:213-220). *)
Definition set_bits_for (ws : list N) (idx : nat) (e : N) : res N :=
  shl32 e (option_bits_start ws idx).

(** [( set_bits_for( options ) | ... | 0 )] *)
Fixpoint or_bits (ws : list N) (es : list (nat * N)) : res N :=
  match es with
  | [] => Ok 0
  | (i, e) :: r =>
      (b <- set_bits_for ws i e ;; rest <- or_bits ws r ;; Ok (N.lor b rest))%res
  end.

(** [default_option_flag] (impl/daw_json_option_bits.h:107-110) and
    [default_policy_flag] (impl/daw_json_parse_options_impl.h:218-232,
    impl/daw_json_serialize_policy_details.h:222-236): [ds] are the
    [default_json_option_value]s in list order. *)
Definition default_flag (ws ds : list N) : res N :=
  or_bits ws (combine (seq 0 (length ws)) ds).

(** [JsonOptionList::options] (impl/daw_json_option_bits.h:118-127),
    [parse_options] (impl/daw_json_parse_options_impl.h:254-263) and
    [serialize_options] (impl/daw_json_serialize_policy.h:35-44): the
    requested bits are or-ed onto the defaults. *)
Definition make_options (ws ds : list N) (es : list (nat * N)) : res N :=
  (d <- default_flag ws ds ;; b <- or_bits ws es ;; Ok (N.lor d b))%res.

(** [output_flags<...>::value] (../daw_to_json_fwd.h:22-37). *)
Definition output_flags (ws ds : list N) (es : list (nat * N)) : res N :=
  (d <- default_flag ws ds ;; set_bits ws d es)%res.

(** [get_bits_for] (impl/daw_json_option_bits.h:174-193,
    impl/daw_json_parse_options_impl.h:234-244,
    impl/daw_json_serialize_policy_details.h:238-248). *)
Definition get_bits_for (ws : list N) (value : N) (idx : nat) : res N :=
  (mask <- ones (option_bits_start ws idx + width ws idx) ;;
   shr32 (N.land value mask) (option_bits_start ws idx))%res.

(** The option lists of the library: (width, default) in list order. *)
(** impl/daw_json_parse_options_impl.h:44-168: ExecModeTypes,
    ZeroTerminatedString, PolicyCommentTypes, CheckedParseMode,
    AllowEscapedNames, IEEE754Precise, ForceFullNameCheck, MinifiedDocument,
    UseExactMappingsByDefault, MustVerifyEndOfDataIsValid,
    ExcludeSpecialEscapes, ExpectLongNames. *)
Definition parse_ws : list N := [2; 1; 2; 1; 1; 1; 1; 1; 1; 1; 1; 1].
Definition parse_ds : list N := [0; 0; 0; 0; 0; 0; 0; 0; 0; 0; 0; 0].
(** impl/daw_json_serialize_options_impl.h:22-84 and
    impl/daw_json_serialize_policy_details.h:163-167: SerializationFormat,
    IndentationType (Space2 = 2), RestrictedStringOutput (ErrorInvalidUTF8 =
    1), NewLineDelimiter, OutputTrailingComma. *)
Definition ser_ws : list N := [1; 3; 2; 1; 1].
Definition ser_ds : list N := [0; 2; 1; 0; 0].
(** impl/daw_json_type_options.h:118-120: LiteralAsStringOpt, JsonRangeCheck,
    JsonNumberErrors, FPOutputFormat. *)
Definition number_ws : list N := [2; 1; 2; 2].
Definition number_ds : list N := [0; 0; 0; 0].
(** impl/daw_json_type_options.h:134-135: LiteralAsStringOpt. *)
Definition bool_ws : list N := [2].
Definition bool_ds : list N := [0].
(** impl/daw_json_type_options.h:175: EightBitModes (AllowFull = 1). *)
Definition string_ws : list N := [1].
Definition string_ds : list N := [1].
(** impl/daw_json_type_options.h:214-216: EightBitModes,
    AllowEscapeCharacter. *)
Definition string_raw_ws : list N := [1; 1].
Definition string_raw_ds : list N := [1; 0].
(** impl/daw_json_type_options.h:260-261: JsonCustomTypes. *)
Definition custom_ws : list N := [2].
Definition custom_ds : list N := [0].
