(** * C65: programs that do not have the new fields of a definition.

    Vocabulary: SpecTrim.v ([grown]: structs got new fields and others may
    have changed places; [trimmed]: the value without the new fields),
    SpecValue.v ([Conforms]). *)
From Verif Require Import Str Num Xml XmlText Reader Schema De Ser Conform SpecTree SpecText SpecStruct SpecValue SpecEvolve SpecMove SpecComplete
  SpecRound SpecRoundFlat SpecSpread SpecDeclared SpecTrim FitsCheck FuelProofs SpreadCheck TrimProofs TrimWritten PropertiesRound PropertiesRoundFlat.
Open Scope list_scope.

(** ** In full: what a program with the definition [E'] reads, one with [E]
    reads too; it does not see the new fields. *)
Definition C65_full : Prop :=
  forall x d P E E' fuel id s v', grown P E E' -> complete E -> defaults_trimmed x (with_defaults x d) P E E' ->
    (exists td, nth_error E id = Some td) ->
    from_str (with_defaults x d) E' fuel id s = OOk v' ->
    exists v, from_str x E fuel id s = OOk v /\ trimmed P E id v v'.

(** The new program looks for its fields inside the element of a simple field,
    too; for the old one this element is unknown, and it skips it. *)
Definition skE := [struct_ "a" ya0 [fld "c" tstr]].
Definition skE' := [struct_ "a" ya0 [fld "c" tstr; fld "b" (TOpt (BSimple SString))]].
Definition skP (id : nat) : list nat := [0].
Ltac structs_only :=
  split; [intros [|[|[|id]]] td fs f b e [Ht Hb] Hin Hty Hd; inversion Ht; subst td; inversion Hb; subst fs;
            repeat destruct Hin as [<-|Hin]; try contradiction; discriminate
         |intros [|[|[|id]]] td td' vs e e' Ht Ht' Hb; inversion Ht; subst td; discriminate Hb].
Ltac nums := cbv; repeat (apply NoDup_cons; [let Hn := fresh in intros Hn; cbn [In] in Hn; repeat destruct Hn as [Hn|Hn]; try discriminate Hn; exact Hn|]); apply NoDup_nil.
Theorem C65_nested_refuted : ~ C65_full.
Proof.
  intros H. destruct (H x0 (x_default x0) skP skE skE' 40 0 "<a><b><c>1</c></b></a>" (VRec [VStr "1"; VOpt None])) as (v & Hv & _).
  - intros [|[|id]] td Ht; inversion Ht; subst td. eexists. split; [reflexivity|]. split; [reflexivity|]. split; [reflexivity|].
    split; [nums|]. split; [repeat constructor|]. split; [apply labels_nodup; reflexivity|discriminate].
  - intros [|[|id]] td i Ht Hm; inversion Ht; subst td. destruct Hm as (f & [<-|[]] & Hf). discriminate Hf.
  - structs_only.
  - eexists; reflexivity.
  - vm_compute. reflexivity.
  - vm_compute in Hv. discriminate Hv.
Qed.
Print Assumptions C65_nested_refuted.

(** A flattened [Option] is [None] for the new program, if the new fields of
    its type are missing, and [Some] for the old one. *)
Definition foO := struct_ "O" ya0 [fldA "i" (a_flatten ya0) (TOpt (BUser 1))].
Definition foE := [foO; struct_ "I" ya0 [fld "a" (TOpt (BSimple SString))]].
Definition foE' := [foO; struct_ "I" ya0 [fld "a" (TOpt (BSimple SString)); fld "b" tstr]].
Theorem C65_flattened_option_refuted :
  ~ (forall x d P E E' k id s t, grown P E E' -> complete E -> defaults_trimmed x (with_defaults x d) P E E' ->
       (exists td, nth_error E id = Some td) -> markup (parse_text s) = flat t -> Conforms (with_defaults x d) E' k id t ->
       exists N, forall fuel v', N <= fuel -> from_str (with_defaults x d) E' fuel id s = OOk v' ->
         exists v, from_str x E fuel id s = OOk v /\ trimmed P E id v v').
Proof.
  intros H. destruct (H x0 (x_default x0) skP foE foE' 1 0 "<O><a>1</a></O>"
    (Elem (Name "O" None None) [] [] [Elem (Name "a" None None) [] [] [Txt "1"]])) as [N HN].
  - intros [|[|[|id]]] td Ht; inversion Ht; subst td; (eexists; split; [reflexivity|]; split; [reflexivity|]; split; [reflexivity|]);
      (split; [nums|]; split; [repeat constructor|]; split; [apply labels_nodup; reflexivity|]).
    + intros _ f [<-|[]] [_ Hf]. discriminate Hf.
    + discriminate.
  - intros [|[|[|id]]] td i Ht Hm; inversion Ht; subst td; destruct Hm as (f & [<-|[]] & Hf); inversion Hf. eexists; reflexivity.
  - structs_only.
  - eexists; reflexivity.
  - vm_compute. reflexivity.
  - apply (conformsb_ok _ foE' 9). vm_compute. reflexivity.
  - assert (H2 : from_str (with_defaults x0 (x_default x0)) foE' (max N 40) 0 "<O><a>1</a></O>" = OOk (VRec [VOpt None])).
    { unfold from_str. rewrite (fuel_more (with_defaults x0 (x_default x0)) foE' 0 _ 40 _ (Nat.le_max_r _ _)); vm_compute; [reflexivity|discriminate]. }
    assert (H1 : from_str x0 foE (max N 40) 0 "<O><a>1</a></O>" = OOk (VRec [VOpt (Some (VRec [VOpt (Some (VStr "1"))]))])).
    { unfold from_str. rewrite (fuel_more x0 foE 0 _ 40 _ (Nat.le_max_r _ _)); vm_compute; [reflexivity|discriminate]. }
    destruct (HN _ _ (Nat.le_max_l _ _) H2) as (v & Hv & Ht). rewrite H1 in Hv. inversion Hv. subst v. clear - Ht.
    inversion Ht as [id td fs l l' [Htd Hb] Hf| | | |]; subst; try discriminate. inversion Htd. subst td. inversion Hb. subst fs.
    inversion Hf as [|j p f fs v w l l' Hj Hi Hr]; subst. inversion Hj. subst w. inversion Hi.
Qed.
Print Assumptions C65_flattened_option_refuted.

(** ** What holds
    Missing for the full claim: documents that do not conform to the new
    definition, flattened [Option]s, two element fields with the same label,
    and new element fields in structs with flattened fields. *)
Theorem C65_trimmed_partial :
  forall x d P E E' k id n t v', grown P E E' -> complete E -> defaults_trimmed x (with_defaults x d) P E E' -> no_flattened_option E ->
    (exists td, nth_error E id = Some td) ->
    Conforms (with_defaults x d) E' k id t -> Reads (with_defaults x d) E' id n t (OOk v') ->
    Conforms x E k id t /\ exists v, Reads x E id n t (OOk v) /\ trimmed P E id v v'.
Proof. exact trim_reads. Qed.
Print Assumptions C65_trimmed_partial.

Theorem C65_text_partial :
  forall x d P E E' k id s t, grown P E E' -> complete E -> defaults_trimmed x (with_defaults x d) P E E' -> no_flattened_option E ->
    (exists td, nth_error E id = Some td) -> markup (parse_text s) = flat t -> Conforms (with_defaults x d) E' k id t ->
    exists N, forall fuel v', N <= fuel -> from_str (with_defaults x d) E' fuel id s = OOk v' ->
      exists v, from_str x E fuel id s = OOk v /\ trimmed P E id v v'.
Proof. exact trim_read. Qed.
Print Assumptions C65_text_partial.

(** What the new program writes, the old one reads; [supported] and
    [Survives], or [all_ok] and [Lasts], say that the new one could read it
    itself (C28). *)
Theorem C65_written_partial :
  forall x d P E E' id, grown P E E' -> complete E -> defaults_trimmed x (with_defaults x d) P E E' -> no_flattened_option E ->
    (exists td, nth_error E id = Some td) ->
    forall c v' s, supported E' -> rootable E' id -> Survives (with_defaults x d) E' false id v' -> white_indent c ->
    to_string_with_config (with_defaults x d) E' c id v' = SOk s ->
    exists v, trimmed P E id v v' /\ exists N, forall fuel, N <= fuel -> from_str x E fuel id s = OOk v.
Proof. exact trim_written. Qed.
Print Assumptions C65_written_partial.
Theorem C65_written_flatten_partial :
  forall x d P E E' id, grown P E E' -> complete E -> defaults_trimmed x (with_defaults x d) P E E' -> no_flattened_option E ->
    (exists td, nth_error E id = Some td) ->
    forall c v' s, all_ok E' -> root_ok E' id -> Lasts (with_defaults x d) E' false id v' -> white_indent c ->
    to_string_with_config (with_defaults x d) E' c id v' = SOk s ->
    exists v, trimmed P E id v v' /\ exists N, forall fuel, N <= fuel -> from_str x E fuel id s = OOk v.
Proof. exact trim_written_flat. Qed.
Print Assumptions C65_written_flatten_partial.

(** People get a mail address and phone numbers, their addresses a town; the
    fields change places, and the phone numbers have a type of their own. *)
Definition poId := fldA "id" (a_attr ya0) (tint U8).
Definition poName := fld "name" tstr.
Definition poHome := fld "home" (TVec (BUser 1)).
Definition poStreet := fld "street" tstr.
Definition poE := [struct_ "Person" ya0 [poId; poName; poHome]; struct_ "Home" ya0 [poStreet]].
Definition poE' := [struct_ "Person" ya0 [poHome; fldA "mail" (a_attr ya0) tstr; poName; fld "phone" (TVec (BUser 2)); poId];
                    struct_ "Home" ya0 [fld "town" tstr; poStreet];
                    struct_ "Phone" ya0 [fldA "n" (a_text ya0) tstr]].
Definition poP (id : nat) : list nat := match id with 0 => [4; 2; 0] | _ => [1] end.
Definition poV' := VRec [VVec [VRec [VStr "T"; VStr "S"]; VRec [VStr "T2"; VStr "S2"]]; VStr "m"; VStr "N"; VVec [VRec [VStr "12"]]; VInt 7].
Definition poV := VRec [VInt 7; VStr "N"; VVec [VRec [VStr "S"]; VRec [VStr "S2"]]].
Definition poS := "<Person mail=""m"" id=""7""><home><town>T</town><street>S</street></home><home><town>T2</town><street>S2</street></home><name>N</name><phone>12</phone></Person>".
Lemma po_grown : grown poP poE poE' /\ complete poE /\ defaults_trimmed x0 (with_defaults x0 (x_default x0)) poP poE poE' /\ no_flattened_option poE.
Proof.
  split; [|split; [|split]].
  - intros [|[|[|id]]] td Ht; inversion Ht; subst td; (eexists; split; [reflexivity|]; split; [reflexivity|]; split; [reflexivity|]);
      (split; [nums|]; split; [repeat constructor|]; split; [apply labels_nodup; reflexivity|discriminate]).
  - intros [|[|[|id]]] td i Ht Hm; inversion Ht; subst td; destruct Hm as (f & Hin & Hf); repeat destruct Hin as [<-|Hin]; try contradiction; inversion Hf.
    eexists; reflexivity.
  - structs_only.
  - intros td fs f b Hin Hb Hf Ha Hfl. repeat destruct Hin as [<-|Hin]; try contradiction; inversion Hb; subst fs;
      repeat destruct Hf as [<-|Hf]; try contradiction; discriminate.
Qed.
Example C65_case :
  grown poP poE poE' /\ complete poE /\ defaults_trimmed x0 (with_defaults x0 (x_default x0)) poP poE poE' /\ no_flattened_option poE /\
  supported poE' /\ rootable poE' 0 /\ Survives (with_defaults x0 (x_default x0)) poE' false 0 poV' /\
  to_string (with_defaults x0 (x_default x0)) poE' 0 poV' = SOk (decl +++ poS) /\
  from_str x0 poE fuel 0 (decl +++ poS) = OOk poV /\ trimmed poP poE 0 poV poV'.
Proof.
  destruct po_grown as (H1 & H2 & H3 & H4). split; [exact H1|]. split; [exact H2|]. split; [exact H3|]. split; [exact H4|].
  split; [supp|]. split; [root|]. split; [surv|]. split; [vm_compute; reflexivity|]. split; [vm_compute; reflexivity|].
  assert (Hhome : forall a b, trimmed_base poP poE (BUser 1) (VRec [VStr b]) (VRec [VStr a; VStr b])).
  { intros a b. constructor. eapply tr_struct; [split; reflexivity|]. econstructor; [reflexivity|repeat constructor|constructor]. }
  eapply tr_struct; [split; reflexivity|]. eapply trf_cons; [reflexivity|repeat constructor|]. eapply trf_cons; [reflexivity|repeat constructor|].
  eapply trf_cons; [reflexivity| |apply trf_nil]. apply tri_vec. apply trl_cons; [apply Hhome|]. apply trl_cons; [apply Hhome|]. apply trl_nil.
Qed.
