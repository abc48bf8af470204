(** * C54: loosening a definition keeps documents readable.

    Vocabulary: SpecEvolve.v. *)
From Verif Require Import Str Num Xml XmlText Reader Schema De Ser Conform SpecEvolve EvolveProofs PropertiesStruct.
Open Scope list_scope.

(** ** In full *)
Definition C54_full : Prop :=
  forall x E E' fuel id s v, looser E E' ->
    from_str x E fuel id s = OOk v ->
    exists w, from_str x E' fuel id s = OOk w /\ kept x E E' id v w.

(** A flattened [Option] is [None] where its type cannot be read; with a looser
    type it is [Some]. *)
Definition noteT := struct_ "Note" ya0 [fld "to" tstr; fldA "extra" (a_flatten ya0) (TOpt (BUser 1))].
Definition extraT := struct_ "Extra" ya0 [fld "cc" tstr].
Definition extraT' := struct_ "Extra" ya0 [fld "cc" (TOpt (BSimple SString))].
Lemma same_field : forall f, looser_field f f.
Proof. intros f. repeat split; auto. Qed.
Theorem C54_refuted : ~ C54_full.
Proof.
  intros H.
  assert (HL : looser [noteT; extraT] [noteT; extraT']).
  { constructor; [|constructor; [|constructor]]; split; try split; auto; cbn.
    - repeat (constructor; try apply same_field).
    - constructor; [|constructor]. repeat split; auto. right. exists (BSimple SString). auto. }
  destruct (H x0 _ _ 40 0 "<Note><to>Ann</to></Note>" (VRec [VStr "Ann"; VOpt None]) HL) as (w & Hw & Hk); [vm_compute; reflexivity|].
  vm_compute in Hw. inversion Hw; subst w. clear Hw.
  inversion Hk as [id td td' fs fs' l l' H1 H2 H3 H4 Hf| | |id td vs df H1 H2|id td k v H1 H2]; subst; try (inversion H1; subst; discriminate H2).
  inversion H1; subst td. inversion H2; subst td'. inversion H3; subst fs. inversion H4; subst fs'.
  inversion Hf as [|f f' gs gs' v w l l' _ Hr|f f' gs gs' d l l' Hd]; subst; [|discriminate Hd].
  inversion Hr as [|f f' gs gs' v w l l' Hi _|f f' gs gs' d l l' Hd]; subst; [|discriminate Hd].
  inversion Hi.
Qed.
Print Assumptions C54_refuted.

(** ** What holds
    Missing for the full claim: fields that are both flattened and optional
    ([Option] fields of other kinds, and flattened fields that become optional,
    are covered).  The change may concern any number of types at once. *)
Theorem C54_looser_partial :
  forall x E E' fuel id s v, looser E E' -> no_flattened_option E ->
    from_str x E fuel id s = OOk v ->
    exists w, from_str x E' fuel id s = OOk w /\ kept x E E' id v w.
Proof. exact looser_reads. Qed.
Print Assumptions C54_looser_partial.

(** A note whose recipient becomes optional, whose flattened part becomes
    optional, and whose colour gets a default, besides a payload that becomes
    optional. *)
Definition memoT := struct_ "Memo" ya0 [fld "to" tstr; fldA "color" (a_attr ya0) tstr; fldA "extra" (a_flatten ya0) (tuser 1); fld "k" (tuser 2)].
Definition memoT' := struct_ "Memo" ya0 [fldA "recipient" (a_rename "to" ya0) (TOpt (BSimple SString));
  fldA "color" (a_attr (a_default "red" ya0)) tstr; fldA "extra" (a_flatten ya0) (TOpt (BUser 1)); fld "k" (tuser 2)].
Definition kindT := enum_ "Kind" ya0 [vunit "Plain"; vnew "Level" (tint U8)] (VVar 0 []).
Definition kindT' := enum_ "Kind" ya0 [vunit "Plain"; vnew "Level" (TOpt (BSimple (SInt U8)))] (VVar 0 []).
Definition memoE := [memoT; extraT; kindT].
Definition memoE' := [memoT'; extraT'; kindT'].
Definition memo1 := "<Memo color=""blue""><to>Ann</to><cc>Bob</cc><k><Level>3</Level></k></Memo>".
Example C54_case :
  looser memoE memoE' /\ no_flattened_option memoE /\
  from_str x0 memoE 40 0 memo1 = OOk (VRec [VStr "Ann"; VStr "blue"; VRec [VStr "Bob"]; VVar 1 [VInt 3]]) /\
  from_str x0 memoE' 40 0 memo1 =
    OOk (VRec [VOpt (Some (VStr "Ann")); VStr "blue"; VOpt (Some (VRec [VOpt (Some (VStr "Bob"))])); VVar 1 [VOpt (Some (VInt 3))]]) /\
  from_str x0 memoE 40 0 "<Memo/>" = OErr "cc is a required field of Extra".
Proof.
  split; [|split; [|repeat split; vm_compute; reflexivity]].
  - unfold looser, memoE, memoE'. constructor; [|constructor; [|constructor; [|constructor]]]; split; try split; auto; cbn.
    + constructor; [repeat split; auto; right; exists (BSimple SString); auto|].
      constructor; [repeat split; auto|]. constructor; [repeat split; auto; right; exists (BUser 1); auto|].
      constructor; [apply same_field|constructor].
    + constructor; [|constructor]. repeat split; auto. right. exists (BSimple SString). auto.
    + split; [|reflexivity]. constructor; [repeat split; auto|]. constructor; [|constructor]. repeat split; auto. right. exists (BSimple (SInt U8)). auto.
  - intros td fs f b Hin Hb Hf Ha Hfl.
    destruct Hin as [<-|[<-|[<-|[]]]]; inversion Hb; subst fs; repeat destruct Hf as [<-|Hf]; try contradiction; discriminate.
Qed.
