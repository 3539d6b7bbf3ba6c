(** Live messages: text as XML can carry it, and the nodes on a way. *)

From Coq Require Import List String Ascii Bool Arith ZArith.
From Verif Require Import MessageModel.
Import ListNotations.
Open Scope string_scope.
Open Scope list_scope.

Definition chars (s : string) : list ascii := list_ascii_of_string s.

(** A character that XML has. *)
Definition printable (a : ascii) : Prop :=
  a = TAB \/ a = LF \/ a = CR \/ (32 <= nat_of_ascii a)%nat.
Definition xml_text (s : string) : Prop := Forall printable (chars s).

(** Text without carriage returns, and identifiers without any control
    character. *)
Definition clean (s : string) : Prop := xml_text s /\ ~ In CR (chars s).
Definition clean_sid (s : string) : Prop := s <> "" /\ Forall (fun a => (32 <= nat_of_ascii a)%nat) (chars s).

(** Line ends made into line feeds. *)
Inductive newlines : list ascii -> list ascii -> Prop :=
| nl_nil : newlines [] []
| nl_crlf : forall r t, newlines r t -> newlines (CR :: LF :: r) (LF :: t)
| nl_cr : forall r t, newlines r t -> hd_error r <> Some LF -> newlines (CR :: r) (LF :: t)
| nl_other : forall a r t, newlines r t -> a <> CR -> newlines (a :: r) (a :: t).

Definition lines_of (s t : string) : Prop := newlines (chars s) (chars t).

(** The same with white space made into spaces, in attributes. *)
Definition spaced (s t : string) : Prop :=
  exists l, newlines (chars s) l /\
            Forall2 (fun a b => (a = TAB \/ a = LF) /\ b = SP \/ a <> TAB /\ a <> LF /\ b = a) l (chars t).

(** A message can be read by those who get it: it says something, and in
    characters that XML has. *)
Record clean_message (m : message) : Prop := mkClean {
  cm_sid : clean_sid (m_sid m);
  cm_sender : forall s, m_sender m = Some s -> s <> "" /\ clean s;
  cm_recipient : forall l s, m_recipient m = Some l -> In s l -> clean s;
  cm_payload : exists s, m_payload m = PText s /\ s <> "" /\ clean s }.

(** What has been read of it, under the identifier [sid]. *)
Definition as_read (sid : string) (m : message) : message :=
  mkMessage sid (m_sender m) (Some (match m_recipient m with Some l => l | None => [] end)) (m_payload m) None.

(** Nodes that hand on messages. *)
Definition forwards (n : node) : Prop :=
  match n with NDedup | NEncode | NConsume => False | _ => True end.
Definition textual (n : node) : Prop := n = NBuffer.

(** The identifier at the end of the way: that of the last handover node. *)
Fixpoint identifier (sid : string) (l : list hop) : string :=
  match l with
  | [] => sid
  | h :: r => identifier (match h_node h with NHandover out => out | _ => sid end) r
  end.

Definition clean_way (l : list hop) : Prop :=
  forall h out, In h l -> h_node h = NHandover out -> clean_sid out.
