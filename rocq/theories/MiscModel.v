(** Models of three small parts: output to fixed-size spans and C streams,
    line and column numbers, partitioning of JSON Lines documents. *)
From Coq Require Import List NArith ZArith Bool Arith.
From Verif Require Import Base PolicyModel IntModel Loop.
Import ListNotations.
Local Open Scope N_scope.

(** ** Output *)

(** What the serialisers do with their output: [write( svs... )] and [put( c )],
    daw_json_serialize_policy.h:156-176 *)
Inductive op : Set :=
| OWrite (svs : list (list N))
| OPut (c : N).

(** Memory with a span into it: the span starts at [sp_at] and has [sp_size]
    elements.  Writing outside of the memory is [UB]. *)
Record span := mkspan { sp_mem : list N; sp_at : nat; sp_size : nat }.

(** copy_to_buffer: daw_writable_output_details.h:25-42 *)
Definition copy_to_buffer (mem : list N) (at_ : nat) (sv : list N) : res (list N) :=
  if (at_ + length sv <=? length mem)%nat
  then Ok (firstn at_ mem ++ sv ++ skipn (at_ + length sv) mem) else UB.

(** The lambda [writer] and the fold over the views:
    daw_writable_output_basics.h:71-80.  [subspan( n )] requires n <= size. *)
Fixpoint span_write_all (s : span) (svs : list (list N)) : res span :=
  match svs with
  | [] => Ok s
  | sv :: r =>
      s <- (if (length sv =? 0)%nat then Ok s
            else
              mem <- copy_to_buffer (sp_mem s) (sp_at s) sv ;;
              if (length sv <=? sp_size s)%nat
              then Ok (mkspan mem (sp_at s + length sv) (sp_size s - length sv)) else UB) ;;
      span_write_all s r
  end.

(** [( std::size( svs ) + ... )] in size_t *)
Definition total_size (svs : list (list N)) : N :=
  fold_right (fun sv a => (N.of_nat (length sv) + a) mod 2^64) 0 svs.

(** write: daw_writable_output_basics.h:65-81 *)
Definition span_write (s : span) (svs : list (list N)) : res span :=
  _ <- ensure (total_size svs <=? N.of_nat (sp_size s)) OutputError ;;
  span_write_all s svs.

(** put: daw_writable_output_basics.h:83-88 *)
Definition span_put (s : span) (c : N) : res span :=
  _ <- ensure (negb (sp_size s =? 0)%nat) OutputError ;;
  mem <- copy_to_buffer (sp_mem s) (sp_at s) [c] ;;
  Ok (mkspan mem (sp_at s + 1) (sp_size s - 1)).

Definition span_op (s : span) (o : op) : res span :=
  match o with OWrite svs => span_write s svs | OPut c => span_put s c end.

(** A run: the state reached and whether it ended with an exception. *)
Fixpoint span_run (s : span) (os : list op) : res (span * bool) :=
  match os with
  | [] => Ok (s, true)
  | o :: r =>
      match span_op s o with
      | Ok s' => span_run s' r
      | Err _ => Ok (s, false)
      | UB => UB
      | Fuel => Fuel
      end
  end.

(** The bytes an operation stands for *)
Definition op_bytes (o : op) : list N :=
  match o with OWrite svs => concat svs | OPut c => [c] end.

(** Resizable containers: daw_writable_output_basics.h:91-123.  [write] grows the
    container by the total size and copies behind its old content. *)
Fixpoint fill (mem : list N) (at_ : nat) (svs : list (list N)) : res (list N) :=
  match svs with
  | [] => Ok mem
  | sv :: r =>
      if (length sv =? 0)%nat then fill mem at_ r
      else mem <- copy_to_buffer mem at_ sv ;; fill mem (at_ + length sv) r
  end.
Definition string_op (out : list N) (o : op) : res (list N) :=
  match o with
  | OWrite svs =>
      let total := fold_right (fun sv a => (length sv + a)%nat) O svs in
      fill (out ++ repeat 0 total) (length out) svs
  | OPut c => Ok (out ++ [c])
  end.
Fixpoint string_run (out : list N) (os : list op) : res (list N) :=
  match os with
  | [] => Ok out
  | o :: r => out <- string_op out o ;; string_run out r
  end.

(** C streams: daw_writable_output_cstdio.h:26-52, without I/O errors.  fputc
    returns the character as unsigned char; [put] compares that with a signed
    [char]. *)
Definition file_put (out : list N) (c : N) : res (list N) :=
  let ret := Z.of_N (c mod 256) in
  let cc := if c <? 128 then Z.of_N c else (Z.of_N c - 256)%Z in
  _ <- ensure (ret =? cc)%Z OutputError ;;
  Ok (out ++ [c]).
Definition file_op (out : list N) (o : op) : res (list N) :=
  match o with
  | OWrite svs => Ok (out ++ concat svs)
  | OPut c => file_put out c
  end.
Fixpoint file_run (out : list N) (os : list op) : res (list N) :=
  match os with
  | [] => Ok out
  | o :: r => out <- file_op out o ;; file_run out r
  end.

(** ** Lines and columns *)

(** find_line_number_of: daw_json_find_path.h:300-315 (indices of the same
    document; the null checks are not modelled) *)
Definition find_line_number_of (doc : list N) (pos start : nat) : res N :=
  _ <- ensure (start <? pos)%nat UnexpectedEndOfData ;;
  if (pos <=? length doc)%nat
  then Ok (fold_left (fun count c => if c =? 10 then count + 1 else count)
             (firstn (pos - start) (skipn start doc)) 0)
  else UB.

(** find_column_number_of: daw_json_find_path.h:322-334 *)
Fixpoint find_distance (l : list N) : N :=
  match l with
  | [] => 0
  | c :: r => if c =? 10 then 0 else 1 + find_distance r
  end.
Definition find_column_number_of (doc : list N) (pos start : nat) : res N :=
  _ <- ensure (start <? pos)%nat UnexpectedEndOfData ;;
  if (pos <=? length doc)%nat
  then Ok (find_distance (rev (firstn (pos - start) (skipn start doc))))
  else UB.

(** ** Partitioning JSON Lines *)

(** [while( tmp < last and *tmp != '\n' ) ++tmp], then one further unless at the
    end: how many bytes from here *)
Fixpoint to_line_end (l : list N) : nat :=
  match l with
  | [] => 0
  | c :: r => if c =? 10 then 1 else S (to_line_end r)
  end.

(** daw::string_view::trim_suffix (external): drops white space at the end *)
Definition isspace (b : N) : bool := (b =? 32) || ((9 <=? b) && (b <=? 13)).
Fixpoint drop_space (l : list N) : list N :=
  match l with
  | [] => []
  | c :: r => if isspace c then drop_space r else l
  end.
Definition trim_suffix (l : list N) : list N := rev (drop_space (rev l)).

(** The loop of partition_jsonl_document: daw_json_lines_iterator.h:227-245.
    [doc] is the rest; ranges are given as texts. *)
Definition part_body (seg : nat) (s : list N * list (list N)) :
  res ((list N * list (list N)) + list (list N)) :=
  let '(doc, out) := s in
  if (length doc =? 0)%nat then Ok (inr out)
  else if (length doc <=? seg)%nat then Ok (inr (out ++ [doc]))
  else
    let sz := (seg + to_line_end (skipn seg doc))%nat in
    let d := trim_suffix (firstn sz doc) in
    Ok (inl (skipn sz doc, if (length d =? 0)%nat then out else out ++ [d])).

(** partition_jsonl_document: daw_json_lines_iterator.h:213-247 *)
Definition partition_jsonl (n : N) (doc : list N) : res (list (list N)) :=
  if n <=? 1 then Ok [doc]
  else
    let seg := N.to_nat (N.of_nat (length doc) / n) in
    loop (part_body seg) (S (length doc)) (doc, []).
