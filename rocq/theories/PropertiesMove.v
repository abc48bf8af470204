(** * C57: fields that change places, and new fields that may be missing.

    Vocabulary: SpecMove.v, SpecEvolve.v ([no_flattened_option]). *)
From Verif Require Import Str Num Xml XmlText Reader Schema De Conform SpecTree SpecStruct SpecSource SpecEvolve SpecMove
  SourceProofs MoveProofs.
From Coq Require Import Permutation.
Open Scope list_scope.

(** ** In full: the definition [E'] reads the same documents as [E], with the
    same values in their new places. *)
Definition C57_full : Prop :=
  forall x d P E E' fuel id s,
    rearranged (with_defaults x d) P E E' -> defaults_moved x (with_defaults x d) P E E' ->
    (forall e, In e (s_evs (parse_text s)) -> nothing_new P E' e) ->
    (forall v, from_str x E fuel id s = OOk v ->
       exists w, from_str (with_defaults x d) E' fuel id s = OOk w /\ moved (with_defaults x d) P E E' id v w) /\
    (forall w, from_str (with_defaults x d) E' fuel id s = OOk w ->
       exists v, from_str x E fuel id s = OOk v /\ moved (with_defaults x d) P E E' id v w).

(** Of two fields with the same name the first one takes all the elements. *)
Definition twinsT := struct_ "S" ya0 [fldA "a" (a_rename "n" ya0) (TVec (BSimple SString)); fldA "b" (a_rename "n" ya0) (TOpt (BSimple SString))].
Definition twinsT' := struct_ "S" ya0 [fldA "b" (a_rename "n" ya0) (TOpt (BSimple SString)); fldA "a" (a_rename "n" ya0) (TVec (BSimple SString))].
Definition swap (id : nat) : plan := match id with 0 => [Some 1; Some 0] | _ => [] end.
Lemma swapped : forall x td td' f g, t_name td' = t_name td -> t_attrs td' = t_attrs td ->
  t_body td = DStruct [f; g] -> t_body td' = DStruct [g; f] -> rearranged_type x (swap 0) td td'.
Proof.
  intros x td td' f g Hn Ha Hb Hb'. split; [exact Hn|]. split; [exact Ha|]. rewrite Hb, Hb'. split; [apply perm_swap|].
  constructor; [reflexivity|]. constructor; [reflexivity|constructor].
Qed.
Theorem C57_refuted : ~ C57_full.
Proof.
  intros H.
  destruct (H x0 (x_default x0) swap [twinsT] [twinsT'] 40 0 "<S><n>u</n></S>") as [H1 _].
  - intros [|[|id]]; cbn; auto. eapply swapped; reflexivity.
  - split.
    + intros [|[|id]] td fs f b d [Ht Hb] Hin Hty Hd; inversion Ht; subst td. inversion Hb; subst fs.
      destruct Hin as [<-|[<-|[]]]; discriminate.
    + intros [|[|id]] td td' vs d d' Ht Ht' Hb; inversion Ht; subst td; discriminate Hb.
  - intros e _ [|id] td fs j f _ Hj; [destruct j as [|[|[|j]]]|destruct j]; discriminate.
  - destruct (H1 (VRec [VVec [VStr "u"]; VOpt None])) as (w & Hw & Hm); [vm_compute; reflexivity|].
    vm_compute in Hw. inversion Hw; subst w. clear Hw.
    inversion Hm as [id td td' fs fs' l l' [Ht Hb] [Ht' Hb'] Hl Hf| | | |]; subst.
    inversion Ht; subst td. inversion Ht'; subst td'. inversion Hb; subst fs. inversion Hb'; subst fs'.
    inversion Hf as [|p k f gs l l' v w Hv Hi Hr|]; subst. inversion Hv; subst. inversion Hi.
Qed.
Print Assumptions C57_refuted.

(** A flattened [Option] is [None] when its type is refused with an error, but
    a panic goes through; which of the two comes first depends on the order of
    the fields. *)
Definition innerT := struct_ "I" ya0 [fldA "a" (a_attr ya0) (tint U8); fldA "b" (a_attr ya0) (tuser 2)].
Definition innerT' := struct_ "I" ya0 [fldA "b" (a_attr ya0) (tuser 2); fldA "a" (a_attr ya0) (tint U8)].
Definition outerT := struct_ "O" ya0 [fldA "i" (a_flatten ya0) (TOpt (BUser 1))].
Definition levelT := enum_ "Kind" ya0 [vunit "Plain"; vnew "Level" (tint U8)] (VVar 0 []).
Definition swap1 (id : nat) : plan := match id with 0 => [Some 0] | 1 => [Some 1; Some 0] | _ => [] end.
Definition clash := "<O a=""x"" b=""&lt;Level&gt;x&lt;/Level&gt;""/>".
Theorem C57_flattened_option_refuted :
  ~ (forall x d P E E' fuel id s v,
       rearranged (with_defaults x d) P E E' -> defaults_moved x (with_defaults x d) P E E' -> keeps_orders P E ->
       (forall e, In e (s_evs (parse_text s)) -> nothing_new P E' e) ->
       from_str x E fuel id s = OOk v -> exists w, from_str (with_defaults x d) E' fuel id s = OOk w).
Proof.
  intros H.
  destruct (H x0 (x_default x0) swap1 [outerT; innerT; levelT] [outerT; innerT'; levelT] 40 0 clash (VRec [VOpt None])) as (w & Hw).
  - intros [|[|[|[|id]]]]; cbn; auto.
    + split; [reflexivity|]. split; [reflexivity|]. split; [apply Permutation_refl|]. repeat constructor.
    + split; [reflexivity|]. split; [reflexivity|]. split; [apply perm_swap|]. repeat constructor.
    + repeat split.
  - split.
    + intros [|[|[|[|id]]]] td fs f b d [Ht Hb] Hin Hty Hd; inversion Ht; subst td; inversion Hb; subst fs;
        repeat destruct Hin as [<-|Hin]; try contradiction; discriminate.
    + intros [|[|[|[|id]]]] td td' vs d d' Ht Ht' Hb Hb'; inversion Ht; subst td; try discriminate Hb; inversion Ht'; subst td'.
      inversion Hb; inversion Hb'; subst. eapply m_unit; reflexivity.
  - intros [|[|[|[|id]]]] td fs [Ht Hb] i j k m f g Hij Hi Hj; inversion Ht; subst td; inversion Hb; subst fs.
    + destruct i as [|[|]], j as [|[|]]; try discriminate. inversion Hij.
    + intros _ Hk _ [Ha _]. destruct k as [|[|[|]]]; inversion Hk; subst f; discriminate Ha.
  - intros e _ [|[|id]] td fs j f _ Hj; repeat (destruct j as [|j]; try discriminate Hj).
  - vm_compute. reflexivity.
  - vm_compute in Hw. discriminate Hw.
Qed.
Print Assumptions C57_flattened_option_refuted.

(** ** What holds
    Fields that overtake each other have different names and namespaces, and
    no field is both flattened and optional.  Missing for the full claim: new
    fields together with flattened fields or with attributes of struct or
    payload types. *)
Theorem C57_rearranged_partial :
  forall x d P E E' fuel id s,
    rearranged (with_defaults x d) P E E' -> defaults_moved x (with_defaults x d) P E E' ->
    keeps_orders P E -> no_flattened_option E ->
    (forall i, ~ In None (P i)) \/ (one_text E /\ forall e, In e (s_evs (parse_text s)) -> nothing_new P E' e) ->
    (forall v, from_str x E fuel id s = OOk v ->
       exists w, from_str (with_defaults x d) E' fuel id s = OOk w /\ moved (with_defaults x d) P E E' id v w) /\
    (forall w, from_str (with_defaults x d) E' fuel id s = OOk w ->
       exists v, from_str x E fuel id s = OOk v /\ moved (with_defaults x d) P E E' id v w).
Proof. exact rearranged_reads. Qed.
Print Assumptions C57_rearranged_partial.

(** A shelf and its books: the shelf gets a list of owners, the book a
    language, and the fields of the book change places. *)
Definition shelfT := struct_ "Shelf" ya0 [fldA "room" (a_attr ya0) (tint U8); fld "book" (TVec (BUser 1))].
Definition shelfT' := struct_ "Shelf" ya0 [fld "owner" (TVec (BSimple SString)); fld "book" (TVec (BUser 1)); fldA "room" (a_attr ya0) (tint U8)].
Definition bookT := struct_ "Book" ya0 [fld "title" tstr; fldA "year" (a_attr ya0) (TOpt (BSimple (SInt U16)))].
Definition bookT' := struct_ "Book" ya0 [fldA "year" (a_attr ya0) (TOpt (BSimple (SInt U16))); fldA "lang" (a_attr (a_default "default_string" ya0)) tstr; fld "title" tstr].
Definition libP (id : nat) : plan := match id with 0 => [None; Some 1; Some 0] | 1 => [Some 1; None; Some 0] | _ => [] end.
Definition libE := [shelfT; bookT].
Definition libE' := [shelfT'; bookT'].
Definition lib1 := "<Shelf room=""3""><book year=""1984""><title>A</title></book><book><title>B</title></book></Shelf>".
Lemma lib_new : forall e, In e (s_evs (parse_text lib1)) -> nothing_new libP libE' e.
Proof.
  assert (H1 : forall e, In e (s_evs (parse_text lib1)) -> ~ supplies ya0 (fld "owner" (TVec (BSimple SString))) e)
    by (apply suppliesb_ok; vm_compute; reflexivity).
  assert (H2 : forall e, In e (s_evs (parse_text lib1)) -> ~ supplies ya0 (fldA "lang" (a_attr (a_default "default_string" ya0)) tstr) e)
    by (apply suppliesb_ok; vm_compute; reflexivity).
  intros e He [|[|id]] td fs j f [Ht Hb] Hj Hf; [| |destruct id; discriminate Ht].
  - inversion Ht; subst td. inversion Hb; subst fs. destruct j as [|[|[|j]]]; try discriminate Hj; [|destruct j; discriminate Hj]. inversion Hf; subst f. apply H1; exact He.
  - inversion Ht; subst td. inversion Hb; subst fs. destruct j as [|[|[|j]]]; try discriminate Hj; [|destruct j; discriminate Hj]. inversion Hf; subst f. apply H2; exact He.
Qed.
Example C57_case :
  rearranged (with_defaults x0 (x_default x0)) libP libE libE' /\ defaults_moved x0 (with_defaults x0 (x_default x0)) libP libE libE' /\
  keeps_orders libP libE /\ no_flattened_option libE /\ one_text libE /\
  (forall e, In e (s_evs (parse_text lib1)) -> nothing_new libP libE' e) /\
  from_str x0 libE 40 0 lib1 = OOk (VRec [VInt 3; VVec [VRec [VStr "A"; VOpt (Some (VInt 1984))]; VRec [VStr "B"; VOpt None]]]) /\
  from_str (with_defaults x0 (x_default x0)) libE' 40 0 lib1 =
    OOk (VRec [VVec []; VVec [VRec [VOpt (Some (VInt 1984)); VStr "my_default_value"; VStr "A"];
                              VRec [VOpt None; VStr "my_default_value"; VStr "B"]]; VInt 3]).
Proof.
  split; [|split; [|split; [|split; [|split; [|split; [exact lib_new|split; vm_compute; reflexivity]]]]]].
  - intros [|[|[|id]]]; cbn; auto.
    + split; [reflexivity|]. split; [reflexivity|]. split; [apply perm_swap|]. repeat (constructor; try reflexivity). discriminate.
    + split; [reflexivity|]. split; [reflexivity|]. split; [apply perm_swap|]. repeat (constructor; try reflexivity). discriminate.
  - split.
    + intros [|[|[|id]]] td fs f b d [Ht Hb] Hin Hty Hd; inversion Ht; subst td; inversion Hb; subst fs;
        repeat destruct Hin as [<-|Hin]; try contradiction; discriminate.
    + intros [|[|[|id]]] td td' vs d d' Ht Ht' Hb; inversion Ht; subst td; discriminate Hb.
  - intros [|[|[|id]]] td fs [Ht Hb] i j k m f g Hij Hi Hj; inversion Ht; subst td; inversion Hb; subst fs;
      intros Hm Hk Hg [Ha _] [Ha' _]; destruct k as [|[|[|]]]; inversion Hk; subst f; try discriminate Ha;
      destruct m as [|[|[|]]]; inversion Hg; subst g; try discriminate Ha'; exfalso; exact (Nat.lt_irrefl _ Hm).
  - intros td fs f b [<-|[<-|[]]] Hb Hin Ha Hfl; inversion Hb; subst fs; repeat destruct Hin as [<-|Hin]; try contradiction; discriminate.
  - intros [|[|[|id]]] td fs f [Ht Hb] Hin; inversion Ht; subst td; inversion Hb; subst fs;
      repeat destruct Hin as [<-|Hin]; try contradiction; (split; [reflexivity|]); intros Ha; try discriminate Ha; exact I.
Qed.
