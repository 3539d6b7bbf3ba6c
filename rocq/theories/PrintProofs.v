(** Proofs about writing and reading documents. *)

From Coq Require Import List String Ascii Bool Arith Lia.
From Verif Require Import PrintModel PrintSpec.
Import ListNotations.
Open Scope string_scope.

(** ** Induction on documents *)

Lemma node_ind' : forall Q : node -> Prop,
  (forall s, Q (Text s)) -> Q Br -> (forall m, Q (Leaf m)) ->
  (forall t a kids, Forall Q kids -> Q (El t a kids)) -> forall n, Q n.
Proof.
  intros Q HT HB HL HE. fix IH 1. intros [s| |m|t a kids]; [apply HT|apply HB|apply HL|].
  apply HE. induction kids as [|k r IHr]; constructor; [apply IH|exact IHr].
Qed.

(** ** What is read *)

Definition put (p : string) (l : list node) : list node :=
  match p with EmptyString => l | _ => Text (eol p) :: l end.

Fixpoint lay (d : nat) (n : node) : node :=
  match n with
  | El t a kids =>
      El t a (match kids with
              | [] => []
              | [Text s] => put s []
              | _ =>
                  if mixed t then
                    (fix go (p : string) (l : list node) : list node :=
                       match l with
                       | [] => put (p ++ indent d) []
                       | Text s :: r => go (p ++ indent (S d) ++ s ++ nl) r
                       | k :: r => put (p ++ indent (S d)) (lay (S d) k :: go nl r)
                       end) nl kids
                  else map (lay (S d)) kids
              end)
  | _ => n
  end.

Fixpoint lay_kids (d : nat) (p : string) (l : list node) : list node :=
  match l with
  | [] => put (p ++ indent d) []
  | Text s :: r => lay_kids d (p ++ indent (S d) ++ s ++ nl) r
  | k :: r => put (p ++ indent (S d)) (lay (S d) k :: lay_kids d nl r)
  end.
Definition lay_in (d : nat) (kids : list node) : list node :=
  match kids with
  | [] => []
  | [Text s] => put s []
  | _ => lay_kids d nl kids
  end.

Lemma lay_mixed : forall d t a kids, mixed t = true -> lay d (El t a kids) = El t a (lay_in d kids).
Proof.
  intros d t a kids M. cbn [lay]. f_equal. unfold lay_in.
  assert (forall l p, (fix go (p : string) (l : list node) : list node :=
                       match l with
                       | [] => put (p ++ indent d) []
                       | Text s :: r => go (p ++ indent (S d) ++ s ++ nl) r
                       | k :: r => put (p ++ indent (S d)) (lay (S d) k :: go nl r)
                       end) p l = lay_kids d p l) as G.
  { induction l as [|[s| |m|t' a' ks] r IH]; intros p; [reflexivity| | | |];
      cbn [lay_kids]; rewrite <- IH; reflexivity. }
  destruct kids as [|[s| |m|t' a' ks] [|k2 r]]; try reflexivity; rewrite M;
    match goal with |- _ = lay_kids _ _ ?l => exact (G l nl) end.
Qed.

Lemma lay_other : forall d t a kids, mixed t = false -> forallb (legal_in t) kids = true ->
  lay d (El t a kids) = El t a (map (lay (S d)) kids).
Proof.
  intros d t a kids M L. cbn [lay]. f_equal.
  destruct kids as [|[s| |m|t' a' ks] [|k2 r]]; try reflexivity; try (rewrite M; reflexivity).
  cbn [forallb legal_in] in L. rewrite M in L. discriminate L.
Qed.

(** ** Strings *)

Lemma app_nil_r_s : forall s, s ++ "" = s.
Proof. induction s as [|c r IH]; cbn; [reflexivity|rewrite IH; reflexivity]. Qed.
Lemma app_assoc_s : forall a b c : string, (a ++ b) ++ c = a ++ b ++ c.
Proof. induction a as [|x r IH]; intros b c; cbn; [reflexivity|rewrite IH; reflexivity]. Qed.

Lemma all_white_app : forall a b, all_white (a ++ b) = all_white a && all_white b.
Proof. induction a as [|c r IH]; intros b; cbn; [reflexivity|rewrite IH, andb_assoc; reflexivity]. Qed.
Lemma indent_white : forall d, all_white (indent d) = true.
Proof. induction d as [|d IH]; cbn; auto. Qed.

(** ** Reading what was written *)

Definition closed (n : node) (rest : list frame) (r : list piece) : option node :=
  match rest with
  | [] => Some n
  | g :: rest' => read r "" (add g n) rest'
  end.

Lemma flush_mixed : forall f p, mixed (f_tag f) = true ->
  flush f p = Some (mkFrame (f_tag f) (f_attrs f) (rev (put p []) ++ f_kids f)).
Proof.
  intros [t a k] p M. cbn in M. unfold flush. destruct p; [reflexivity|]. cbn [f_tag]. rewrite M. reflexivity.
Qed.
Lemma flush_white : forall f p, mixed (f_tag f) = false -> all_white p = true -> flush f p = Some f.
Proof. intros f p M W. unfold flush. destruct p; [reflexivity|]. rewrite M, W. reflexivity. Qed.

Lemma rev_put : forall p l, (put p l = put p [] ++ l)%list.
Proof. intros [|c p] l; reflexivity. Qed.

Definition is_text (n : node) : bool := match n with Text _ => true | _ => false end.

(** Of a child that is no text. *)
Definition reads (n : node) : Prop :=
  forall d p top rest r f, is_text n = false -> legal_in (f_tag top) n = true ->
    flush top (p ++ indent d) = Some f ->
    read (write d n ++ r) p top rest = read r nl (add f (lay d n)) rest.

Lemma read_mixed_kids : forall d t a kids, mixed t = true -> Forall reads kids ->
  forallb (legal_in t) kids = true ->
  forall p K rest r,
  read (flat_map (write (S d)) kids ++ Ch (indent d) :: Close :: r) p (mkFrame t a K) rest =
  closed (El t a (rev K ++ lay_kids d p kids)) rest r.
Proof.
  intros d t a kids M F. induction F as [|k ks Hk F IH]; intros L p K rest r.
  - cbn [flat_map app read lay_kids]. rewrite (flush_mixed (mkFrame t a K)) by exact M.
    cbn [f_tag f_attrs f_kids]. unfold closed. rewrite rev_app_distr, rev_involutive. reflexivity.
  - cbn [forallb] in L. apply andb_true_iff in L. destruct L as [Lk L]. specialize (IH L).
    assert (is_text k = false ->
      read (flat_map (write (S d)) (k :: ks) ++ Ch (indent d) :: Close :: r) p (mkFrame t a K) rest =
      closed (El t a (rev K ++ put (p ++ indent (S d)) (lay (S d) k :: lay_kids d nl ks))) rest r) as G.
    { intros NT. cbn [flat_map]. rewrite <- app_assoc.
      rewrite (Hk (S d) p (mkFrame t a K) rest _ _ NT Lk (flush_mixed (mkFrame t a K) _ M)).
      unfold add. cbn [f_tag f_attrs f_kids]. rewrite IH. f_equal. f_equal.
      cbn [rev]. rewrite rev_app_distr, rev_involutive, (rev_put _ (_ :: _)), <- !app_assoc. reflexivity. }
    destruct k as [s| |m|t' a' kk]; [|apply G; reflexivity|apply G; reflexivity|apply G; reflexivity].
    cbn [flat_map write app read lay_kids]. rewrite IH. reflexivity.
Qed.

Lemma read_other_kids : forall d t a kids, mixed t = false -> Forall reads kids ->
  forallb (legal_in t) kids = true ->
  forall p K rest r, all_white p = true ->
  read (flat_map (write (S d)) kids ++ Ch (indent d) :: Close :: r) p (mkFrame t a K) rest =
  closed (El t a (rev K ++ map (lay (S d)) kids)) rest r.
Proof.
  intros d t a kids M F. induction F as [|k ks Hk F IH]; intros L p K rest r W.
  - cbn [flat_map app read map]. rewrite flush_white; [|exact M|rewrite all_white_app, W, indent_white; reflexivity].
    cbn [f_tag f_attrs f_kids]. rewrite app_nil_r. reflexivity.
  - cbn [forallb] in L. apply andb_true_iff in L. destruct L as [Lk L].
    assert (is_text k = false) as NT.
    { destruct k; [|reflexivity|reflexivity|reflexivity]. cbn [legal_in] in Lk. rewrite M in Lk. discriminate. }
    cbn [flat_map]. rewrite <- app_assoc.
    assert (flush (mkFrame t a K) (p ++ indent (S d)) = Some (mkFrame t a K)) as Hf.
    { apply flush_white; [exact M|]. rewrite all_white_app, W, indent_white. reflexivity. }
    rewrite (Hk (S d) p (mkFrame t a K) rest _ _ NT Lk Hf).
    unfold add. cbn [f_tag f_attrs f_kids]. rewrite (IH L) by reflexivity.
    cbn [rev map]. rewrite <- app_assoc. reflexivity.
Qed.

(** The inside of an element. *)
Definition inside (d : nat) (kids : list node) : list piece :=
  match kids with
  | [] => []
  | [Text s] => [Ch s]
  | _ => Ch nl :: flat_map (write (S d)) kids ++ [Ch (indent d)]
  end.

Lemma read_inside : forall d t a kids, Forall reads kids -> forallb (legal_in t) kids = true ->
  forall rest r,
  read (inside d kids ++ Close :: r) "" (mkFrame t a []) rest = closed (lay d (El t a kids)) rest r.
Proof.
  intros d t a kids F L rest r.
  assert (simple kids = false ->
    read ((Ch nl :: flat_map (write (S d)) kids ++ [Ch (indent d)]) ++ Close :: r) "" (mkFrame t a []) rest =
    closed (lay d (El t a kids)) rest r) as G.
  { intros NS. cbn [app read]. rewrite <- app_assoc. cbn [app]. destruct (mixed t) eqn:M.
    - rewrite read_mixed_kids by assumption. rewrite lay_mixed by exact M. cbn [rev app]. f_equal. f_equal.
      unfold lay_in. destruct kids as [|[s| |m|t' a' ks] [|k2 r2]]; try reflexivity; discriminate NS.
    - rewrite read_other_kids by (try assumption; reflexivity). rewrite lay_other by assumption. reflexivity. }
  destruct kids as [|k [|k2 r2]].
  - cbn [inside app read]. cbn [flush]. reflexivity.
  - destruct k as [s| |m|t' a' ks]; try (apply G; reflexivity).
    cbn [forallb legal_in] in L. rewrite andb_true_r in L.
    cbn [inside app read]. change ("" ++ s) with s.
    rewrite flush_mixed by exact L. cbn [f_tag f_attrs f_kids]. rewrite app_nil_r, rev_involutive.
    rewrite lay_mixed by exact L. reflexivity.
  - destruct k as [s| |m|t' a' ks]; apply G; reflexivity.
Qed.

Lemma write_el : forall d t a kids,
  write d (El t a kids) = (Ch (indent d) :: Open t a :: inside d kids ++ [Close; Ch nl])%list.
Proof. intros d t a kids. destruct kids as [|[s| |m|t' a' ks] [|k2 r2]]; reflexivity. Qed.

Lemma reads_all : forall n, reads n.
Proof.
  induction n as [s| |m|t a kids F] using node_ind'; intros d p top rest r f NT L Hf.
  - discriminate NT.
  - cbn [write app read]. rewrite Hf. cbn [lay]. reflexivity.
  - cbn [write app read]. rewrite Hf. cbn [lay]. reflexivity.
  - rewrite write_el. cbn [app read]. rewrite Hf. rewrite <- app_assoc. cbn [app].
    cbn [legal_in] in L. apply andb_true_iff in L. destruct L as [_ L].
    rewrite read_inside by assumption. unfold closed. cbn [read]. reflexivity.
Qed.

Lemma carried_lay : forall n, legal n = true -> carried n = Some (lay 0 n).
Proof.
  intros n L. destruct n as [s| |m|[| | | |] a kids]; try discriminate L. cbn [legal] in L.
  unfold carried, get_xml. rewrite write_el. cbn [create_from_xml].
  rewrite read_inside; [reflexivity| |exact L].
  apply Forall_forall. intros k _. apply reads_all.
Qed.

(** The result is legal again. *)
Lemma legal_put : forall t p l, mixed t = true -> forallb (legal_in t) l = true ->
  forallb (legal_in t) (put p l) = true.
Proof. intros t [|c p] l M L; [exact L|]. cbn [put forallb legal_in]. rewrite M. exact L. Qed.

Lemma legal_lay : forall n d t, legal_in t n = true -> legal_in t (lay d n) = true.
Proof.
  induction n as [s| |m|t0 a kids F] using node_ind'; intros d t L; try exact L.
  cbn [legal_in] in L. apply andb_true_iff in L. destruct L as [A L].
  destruct (mixed t0) eqn:M.
  - rewrite lay_mixed by exact M. cbn [legal_in]. rewrite A. cbn [andb].
    assert (forall p, forallb (legal_in t0) (lay_kids d p kids) = true) as G.
    { clear A. induction F as [|k ks Hk F IH]; intros p.
      - cbn [lay_kids]. apply legal_put; [exact M|reflexivity].
      - cbn [forallb] in L. apply andb_true_iff in L. destruct L as [Lk L]. specialize (IH L).
        destruct k; cbn [lay_kids]; [apply IH| | |]; (apply legal_put; [exact M|]);
          cbn [forallb]; rewrite IH, andb_true_r; apply Hk; exact Lk. }
    unfold lay_in. destruct kids as [|[s| |m|t' a' ks] [|k2 r2]]; try reflexivity; try apply G.
    apply legal_put; [exact M|reflexivity].
  - rewrite lay_other by assumption. cbn [legal_in]. rewrite A. cbn [andb].
    clear A. induction F as [|k ks Hk F IH]; [reflexivity|].
    cbn [forallb map] in *. apply andb_true_iff in L. destruct L as [Lk L].
    rewrite (Hk (S d) t0 Lk), (IH L). reflexivity.
Qed.

Lemma legal_lay_doc : forall n, legal n = true -> legal (lay 0 n) = true.
Proof.
  intros n L. destruct n as [s| |m|[| | | |] a kids]; try discriminate L. cbn [legal] in L.
  rewrite lay_other by (try exact L; reflexivity). cbn [legal].
  rewrite forallb_forall in *. intros k Hk. apply in_map_iff in Hk. destruct Hk as [x [<- Hx]].
  apply legal_lay, L, Hx.
Qed.
