(** * C66: new fields that are left empty do not show.

    Vocabulary: SpecQuiet.v, SpecMove.v ([rearranged], [moved]), SpecRound.v
    ([supported], [rootable], [Survives]). *)
From Verif Require Import Str Num Xml XmlText Reader Schema De Ser Conform SpecTree SpecText SpecStruct SpecMove SpecEnc SpecRound SpecRoundFlat SpecQuiet
  EncProofs QuietProofs RoundText RoundFlatProofs PropertiesRefine PropertiesRound PropertiesRoundFlat.
From Coq Require Import Permutation.
Open Scope list_scope.

(** ** In full: a definition with more fields, that may all be missing in
    documents, writes what the old one wrote, as long as the new fields have
    the values of missing ones. *)
Definition C66_full : Prop :=
  forall x d P E E' c id v w s,
    rearranged (with_defaults x d) P E E' -> in_order P E -> functions_moved x (with_defaults x d) P E E' ->
    moved (with_defaults x d) P E E' id v w ->
    (to_string_with_config x E c id v = SOk s <-> to_string_with_config (with_defaults x d) E' c id w = SOk s).

(** An [Option] that is the text of the element is written when it is [None]:
    as the empty text. *)
Definition one66 := struct_ "S" ya0 [fldA "a" (a_attr ya0) tstr].
Definition two66 := struct_ "S" ya0 [fldA "a" (a_attr ya0) tstr; fldA "t" (a_text ya0) (TOpt (BSimple SString))].
Definition P66 (id : nat) : plan := match id with 0 => [Some 0; None] | _ => [] end.
Theorem C66_text_field_refuted : ~ C66_full.
Proof.
  intros H. specialize (H x0 (x_default x0) P66 [one66] [two66] config0 0 (VRec [VStr "u"]) (VRec [VStr "u"; VOpt None]) (decl +++ "<S a=""u"" />")).
  destruct H as [H _].
  - intros [|[|id]]; cbn; auto. split; [reflexivity|]. split; [reflexivity|]. split; [apply Permutation_refl|]. repeat (constructor; try reflexivity). discriminate.
  - intros [|[|id]] td fs [Ht Hb]; inversion Ht; subst td; inversion Hb; subst fs. reflexivity.
  - intros [|[|id]] td fs f [Ht Hb] Hin; inversion Ht; subst td; inversion Hb; subst fs. destruct Hin as [<-|[]]. split; discriminate.
  - eapply m_struct; [split; reflexivity|split; reflexivity|reflexivity|].
    eapply mf_old; [reflexivity|constructor; constructor|]. apply mf_new; [reflexivity|constructor].
  - specialize (H ltac:(vm_compute; reflexivity)). vm_compute in H. discriminate H.
Qed.
Print Assumptions C66_text_field_refuted.

(** A value that is not equal to itself, like a NaN, is not left out when it is
    the default. *)
Definition nan66 : ext := Ext (x_fshow x0) (x_fparse x0) (fun _ _ => false) (x_default x0) (x_skip_if x0) (x_ushow x0) (x_uparse x0).
Definition more66 := struct_ "S" ya0 [fldA "a" (a_attr ya0) tstr; fldA "t" (a_default "nan" ya0) (TBase (BSimple (SFloat false)))].
Theorem C66_not_equal_refuted :
  ~ (forall x d P E E' c id v w s,
       rearranged (with_defaults x d) P E E' -> in_order P E -> functions_moved x (with_defaults x d) P E E' ->
       (forall id td fs f, struct_type E' id td fs -> In f fs -> ya_text (f_attrs f) = false) ->
       moved (with_defaults x d) P E E' id v w ->
       to_string_with_config x E c id v = SOk s -> to_string_with_config (with_defaults x d) E' c id w = SOk s).
Proof.
  intros H. specialize (H nan66 (fun _ => VFloat 0) P66 [one66] [more66] config0 0 (VRec [VStr "u"]) (VRec [VStr "u"; VFloat 0]) (decl +++ "<S a=""u"" />")).
  assert (Hs : to_string_with_config (with_defaults nan66 (fun _ => VFloat 0)) [more66] config0 0 (VRec [VStr "u"; VFloat 0]) = SOk (decl +++ "<S a=""u"" />")).
  { apply H.
    - intros [|[|id]]; cbn; auto. split; [reflexivity|]. split; [reflexivity|]. split; [apply Permutation_refl|]. repeat (constructor; try reflexivity). discriminate.
    - intros [|[|id]] td fs [Ht Hb]; inversion Ht; subst td; inversion Hb; subst fs. reflexivity.
    - intros [|[|id]] td fs f [Ht Hb] Hin; inversion Ht; subst td; inversion Hb; subst fs. destruct Hin as [<-|[]]. split; discriminate.
    - intros [|[|id]] td fs f [Ht Hb] Hin; inversion Ht; subst td; inversion Hb; subst fs. destruct Hin as [<-|[<-|[]]]; reflexivity.
    - eapply m_struct; [split; reflexivity|split; reflexivity|reflexivity|].
      eapply mf_old; [reflexivity|constructor; constructor|]. apply mf_new; [reflexivity|constructor].
    - vm_compute. reflexivity. }
  vm_compute in Hs. discriminate Hs.
Qed.
Print Assumptions C66_not_equal_refuted.

(** ** What holds
    New fields are [Option]s or lists that are not the text of their element,
    or have a default that is equal to itself; the default of a new attribute
    can be written, as the value of an attribute is written before it is
    compared with the default.  The full claim is false. *)
Theorem C66_trees_partial :
  forall x d P E E', rearranged (with_defaults x d) P E E' -> in_order P E -> quiet (with_defaults x d) P E' ->
    functions_moved x (with_defaults x d) P E E' ->
    forall id v w h, moved (with_defaults x d) P E E' id v w -> encode (with_defaults x d) E' id w h = encode x E id v h.
Proof. exact quiet_encode. Qed.
Print Assumptions C66_trees_partial.

Lemma quiet_text : forall x d P E E' c id v w s,
  rearranged (with_defaults x d) P E E' -> in_order P E -> quiet (with_defaults x d) P E' -> functions_moved x (with_defaults x d) P E E' ->
  moved (with_defaults x d) P E E' id v w ->
  (to_string_with_config x E c id v = SOk s <-> to_string_with_config (with_defaults x d) E' c id w = SOk s).
Proof.
  intros x d P E E' c id v w s Hre Ho Hq Hf Hm. rewrite !config_encode, (quiet_encode x d P E E' Hre Ho Hq Hf id v w _ Hm). reflexivity.
Qed.
Theorem C66_text_partial :
  forall x d P E E' c id v w s,
    rearranged (with_defaults x d) P E E' -> in_order P E -> quiet (with_defaults x d) P E' -> functions_moved x (with_defaults x d) P E E' ->
    moved (with_defaults x d) P E E' id v w ->
    (to_string_with_config x E c id v = SOk s <-> to_string_with_config (with_defaults x d) E' c id w = SOk s).
Proof. exact quiet_text. Qed.
Print Assumptions C66_text_partial.

(** What the old program wrote, the new one reads, with the new fields empty;
    it writes it again as it was. *)
Lemma quiet_read : forall x d P E E' c id v w s,
  rearranged (with_defaults x d) P E E' -> in_order P E -> quiet (with_defaults x d) P E' -> functions_moved x (with_defaults x d) P E E' ->
  moved (with_defaults x d) P E E' id v w -> supported E' -> rootable E' id -> Survives (with_defaults x d) E' false id w -> white_indent c ->
  to_string_with_config x E c id v = SOk s ->
  exists N, forall fuel, N <= fuel -> from_str (with_defaults x d) E' fuel id s = OOk w.
Proof.
  intros x d P E E' c id v w s Hre Ho Hq Hf Hm Hs Hr Hv Hc Hw.
  apply (round_text (with_defaults x d) E' c id w s Hs Hr Hv Hc). apply (quiet_text x d P E E' c id v w s Hre Ho Hq Hf Hm). exact Hw.
Qed.
Theorem C66_read_partial :
  forall x d P E E' c id v w s,
    rearranged (with_defaults x d) P E E' -> in_order P E -> quiet (with_defaults x d) P E' -> functions_moved x (with_defaults x d) P E E' ->
    moved (with_defaults x d) P E E' id v w -> supported E' -> rootable E' id -> Survives (with_defaults x d) E' false id w -> white_indent c ->
    to_string_with_config x E c id v = SOk s ->
    exists N, forall fuel, N <= fuel -> from_str (with_defaults x d) E' fuel id s = OOk w.
Proof. exact quiet_read. Qed.
Print Assumptions C66_read_partial.

(** The same with flattened fields. *)
Lemma quiet_read_flat : forall x d P E E' c id v w s,
  rearranged (with_defaults x d) P E E' -> in_order P E -> quiet (with_defaults x d) P E' -> functions_moved x (with_defaults x d) P E E' ->
  moved (with_defaults x d) P E E' id v w -> all_ok E' -> root_ok E' id -> Lasts (with_defaults x d) E' false id w -> white_indent c ->
  to_string_with_config x E c id v = SOk s ->
  exists N, forall fuel, N <= fuel -> from_str (with_defaults x d) E' fuel id s = OOk w.
Proof.
  intros x d P E E' c id v w s Hre Ho Hq Hf Hm Hs Hr Hv Hc Hw.
  apply (flat_round_text (with_defaults x d) E' c id w s Hs Hr Hv Hc). apply (quiet_text x d P E E' c id v w s Hre Ho Hq Hf Hm). exact Hw.
Qed.
Theorem C66_read_flatten_partial :
  forall x d P E E' c id v w s,
    rearranged (with_defaults x d) P E E' -> in_order P E -> quiet (with_defaults x d) P E' -> functions_moved x (with_defaults x d) P E E' ->
    moved (with_defaults x d) P E E' id v w -> all_ok E' -> root_ok E' id -> Lasts (with_defaults x d) E' false id w -> white_indent c ->
    to_string_with_config x E c id v = SOk s ->
    exists N, forall fuel, N <= fuel -> from_str (with_defaults x d) E' fuel id s = OOk w.
Proof. exact quiet_read_flat. Qed.
Print Assumptions C66_read_flatten_partial.

(** A shelf that gets a list of owners, and books that get a language as an
    attribute with a default, a note, and a number of pages with a default. *)
Definition shelf66 := struct_ "Shelf" ya0 [fldA "room" (a_attr ya0) (tint U8); fld "book" (TVec (BUser 1))].
Definition shelf66' := struct_ "Shelf" ya0 [fldA "room" (a_attr ya0) (tint U8); fld "owner" (TVec (BSimple SString)); fld "book" (TVec (BUser 1))].
Definition book66 := struct_ "Book" ya0 [fld "title" tstr; fldA "year" (a_attr ya0) (TOpt (BSimple (SInt U16)))].
Definition book66' := struct_ "Book" ya0 [fldA "lang" (a_attr (a_default "lang" ya0)) tstr; fld "title" tstr; fld "note" (TOpt (BUser 0));
  fldA "year" (a_attr ya0) (TOpt (BSimple (SInt U16))); fldA "pages" (a_default "pages" ya0) (tint U16)].
Definition libP66 (id : nat) : plan := match id with 0 => [Some 0; None; Some 1] | 1 => [None; Some 0; None; Some 1; None] | _ => [] end.
Definition d66 (s : string) : value := if String.eqb s "lang" then VStr "en" else VInt 100.
Definition v66 := VRec [VInt 3; VVec [VRec [VStr "A"; VOpt (Some (VInt 1984))]; VRec [VStr "B"; VOpt None]]].
Definition w66 := VRec [VInt 3; VVec []; VVec [VRec [VStr "en"; VStr "A"; VOpt None; VOpt (Some (VInt 1984)); VInt 100]; VRec [VStr "en"; VStr "B"; VOpt None; VOpt None; VInt 100]]].
Example C66_case :
  let x' := with_defaults x0 d66 in let E := [shelf66; book66] in let E' := [shelf66'; book66'] in
  rearranged x' libP66 E E' /\ in_order libP66 E /\ quiet x' libP66 E' /\ functions_moved x0 x' libP66 E E' /\
  moved x' libP66 E E' 0 v66 w66 /\ supported E' /\ rootable E' 0 /\ Survives x' E' false 0 w66 /\
  all_ok E' /\ root_ok E' 0 /\ Lasts x' E' false 0 w66 /\
  to_string_with_config x0 E config0 0 v66 =
    SOk (decl +++ "<Shelf room=""3""><book year=""1984""><title>A</title></book><book><title>B</title></book></Shelf>").
Proof.
  cbv zeta. split; [|split; [|split; [|split; [|split; [|split; [supp|split; [root|split; [surv|split; [allok|split; [rootok|split; [lasts|vm_compute; reflexivity]]]]]]]]]]].
  - intros [|[|[|id]]]; cbn; auto.
    + split; [reflexivity|]. split; [reflexivity|]. split; [apply Permutation_refl|]. repeat (constructor; try reflexivity). discriminate.
    + split; [reflexivity|]. split; [reflexivity|]. split; [apply Permutation_refl|]. repeat (constructor; try reflexivity); discriminate.
  - intros [|[|[|id]]] td fs [Ht Hb]; inversion Ht; subst td; inversion Hb; subst fs; reflexivity.
  - intros [|[|[|id]]] td fs j f [Ht Hb] Hj Hf; inversion Ht; subst td; inversion Hb; subst fs.
    + destruct j as [|[|[|j]]]; try discriminate Hj; [|destruct j; discriminate Hj]. inversion Hf; subst f. split; [|discriminate]. right. split; reflexivity.
    + destruct j as [|[|[|[|[|j]]]]]; try discriminate Hj; [| | |destruct j; discriminate Hj]; inversion Hf; subst f.
      * split; intros d [= <-]; [discriminate|constructor].
      * split; [right; split; reflexivity|discriminate].
      * split; [reflexivity|]. intros d [= <-]. constructor.
  - intros [|[|[|id]]] td fs f [Ht Hb] Hin; inversion Ht; subst td; inversion Hb; subst fs; repeat destruct Hin as [<-|Hin]; try contradiction; split; discriminate.
  - assert (Hbook : forall t y, moved (with_defaults x0 d66) libP66 [shelf66; book66] [shelf66'; book66'] 1
      (VRec [VStr t; VOpt y]) (VRec [VStr "en"; VStr t; VOpt None; VOpt y; VInt 100])).
    { intros t y. eapply m_struct; [split; reflexivity|split; reflexivity|reflexivity|].
      apply mf_new; [reflexivity|]. eapply mf_old; [reflexivity|constructor; constructor|]. apply mf_new; [reflexivity|].
      eapply mf_old; [reflexivity|destruct y; constructor; constructor|]. apply mf_new; [reflexivity|constructor]. }
    eapply m_struct; [split; reflexivity|split; reflexivity|reflexivity|].
    eapply mf_old; [reflexivity|constructor; constructor|]. apply mf_new; [reflexivity|].
    eapply mf_old; [reflexivity| |constructor]. apply mi_vec. apply ml_cons; [constructor; apply Hbook|]. apply ml_cons; [constructor; apply Hbook|]. constructor.
Qed.

(** A new attribute of a user type, with a default. *)
Definition lang66 := enum_ "Lang" ya0 [vunit "En"; vunit "Fr"] (VVar 0 []).
Definition page66 := struct_ "Page" ya0 [fld "text" tstr].
Definition page66' := struct_ "Page" ya0 [fldA "lang" (a_attr (a_default "lang" ya0)) (TBase (BUser 1)); fld "text" tstr].
Definition pageP66 (id : nat) : plan := match id with 0 => [None; Some 0] | _ => [] end.
Definition dpage66 (_ : string) : value := VVar 1 [].
Example C66_attribute_case :
  let x' := with_defaults x0 dpage66 in let E := [page66; lang66] in let E' := [page66'; lang66] in
  rearranged x' pageP66 E E' /\ in_order pageP66 E /\ quiet x' pageP66 E' /\ functions_moved x0 x' pageP66 E E' /\
  moved x' pageP66 E E' 0 (VRec [VStr "A"]) (VRec [VVar 1 []; VStr "A"]) /\
  to_string_with_config x0 E config0 0 (VRec [VStr "A"]) = SOk (decl +++ "<Page><text>A</text></Page>").
Proof.
  cbv zeta. split; [|split; [|split; [|split; [|split; [|vm_compute; reflexivity]]]]].
  - intros [|[|[|id]]]; cbn; auto; [|repeat split]. split; [reflexivity|]. split; [reflexivity|]. split; [apply Permutation_refl|]. repeat (constructor; try reflexivity). discriminate.
  - intros [|[|[|id]]] td fs [Ht Hb]; inversion Ht; subst td; inversion Hb; subst fs; reflexivity.
  - intros [|[|[|id]]] td fs j f [Ht Hb] Hj Hf; inversion Ht; subst td; inversion Hb; subst fs.
    destruct j as [|[|j]]; try discriminate Hj; [|destruct j; discriminate Hj]. inversion Hf; subst f.
    split; intros d [= <-]; [vm_compute; discriminate|]. vm_compute x_default. repeat constructor.
  - intros [|[|[|id]]] td fs f [Ht Hb] Hin; inversion Ht; subst td; inversion Hb; subst fs; repeat destruct Hin as [<-|Hin]; try contradiction; split; discriminate.
  - eapply m_struct; [split; reflexivity|split; reflexivity|reflexivity|].
    apply mf_new; [reflexivity|]. eapply mf_old; [reflexivity|constructor; constructor|constructor].
Qed.
