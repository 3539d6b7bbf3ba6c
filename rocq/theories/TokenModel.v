(** Cutting text into subtitles.

    Source: ebu_tt_live/utils.py 199-252, tokenize_english_document.

    The three tokenizers of nltk are not modelled: a document is the list of
    the sentences that the block and sentence tokenizers find, each the list of
    the words that the whitespace tokenizer finds in it.  Words are strings of
    characters; a character is one element of the Python unicode string. *)

From Coq Require Import List String Ascii Bool Arith.
Import ListNotations.
Open Scope string_scope.

(** utils.py 210-211 *)
Definition characters_per_line : nat := 38.
Definition lines_per_subtitle : nat := 2.

(** str.strip(): the blank characters below 128 (the words hold no others). *)
Definition blank (c : ascii) : bool :=
  let n := nat_of_ascii c in
  (Nat.eqb n 32 || (Nat.leb 9 n && Nat.leb n 13) || (Nat.leb 28 n && Nat.leb n 31))%bool.
Fixpoint lstrip (s : string) : string :=
  match s with
  | String c r => if blank c then lstrip r else s
  | EmptyString => EmptyString
  end.
Fixpoint rstrip (s : string) : string :=
  match s with
  | EmptyString => EmptyString
  | String c r => match rstrip r with
                  | EmptyString => if blank c then EmptyString else String c EmptyString
                  | r' => String c r'
                  end
  end.
Definition strip (s : string) : string := rstrip (lstrip s).

(** utils.py 222-250: one turn of the while loop at a time.  [words] is the
    stack reverse_words with its top first.  None: out of fuel. *)
Definition len : string -> nat := String.length.

Fixpoint while_words (fuel : nat) (words : list string) (current_line : string)
  (lines : list string) (end_list : list (list string)) : option (list (list string)) :=
  match fuel with
  | O => None
  | S fuel =>
      match words with
      | [] =>
          let lines := if current_line =? "" then lines else (lines ++ [current_line])%list in
          Some (match lines with [] => end_list | _ => (end_list ++ [lines])%list end)
      | word :: words' =>
          let longer_line := strip (current_line ++ " " ++ word) in
          let '(words, current_line, line_full) :=
            if (Nat.ltb characters_per_line (len longer_line) && negb (current_line =? ""))%bool
            then (word :: words', current_line, true)
            else if Nat.leb characters_per_line (len word) then (words', longer_line, true)
            else (words', longer_line, false) in
          let '(lines, current_line) :=
            if line_full then ((lines ++ [current_line])%list, "") else (lines, current_line) in
          let '(lines, end_list) :=
            if Nat.leb lines_per_subtitle (List.length lines) then ([], (end_list ++ [lines])%list)
            else (lines, end_list) in
          while_words fuel words current_line lines end_list
      end
  end.

(** utils.py 217-250 for one sentence; twice as many turns as words are enough. *)
Definition tokenize_sentence (end_list : list (list string)) (words : list string) : option (list (list string)) :=
  while_words (2 * List.length words + 2) words "" [] end_list.

(** utils.py 213-252 *)
Fixpoint tokenize_sentences (end_list : list (list string)) (sentences : list (list string)) :=
  match sentences with
  | [] => Some end_list
  | s :: r => match tokenize_sentence end_list s with
              | Some e => tokenize_sentences e r
              | None => None
              end
  end.
Definition tokenize_english_document (sentences : list (list string)) : option (list (list string)) :=
  tokenize_sentences [] sentences.
