(** * C57 with flattened fields and attributes of struct types.

    Vocabulary: SpecMove.v, SpecSpared.v ([Spared]: the document has nothing
    for the new fields), SpecValue.v ([Conforms]). *)
From Verif Require Import Str Num Xml XmlText Reader Schema De Conform SpecTree SpecText SpecStruct SpecValue SpecEvolve SpecMove SpecComplete SpecSpread SpecSpared
  FitsCheck SpreadCheck SparedCheck SparedProofs.
From Coq Require Import Permutation.
Open Scope list_scope.

(** Beside [C57_rearranged_partial] (PropertiesMove.v), here new fields and
    flattened fields come together; in exchange, documents conform to the old
    definition.  Missing for the full claim: documents that do not, flattened
    [Option]s, and two element fields with the same label. *)
Theorem C57_flattened_partial :
  forall x d P E E' k id n t,
    rearranged (with_defaults x d) P E E' -> defaults_moved x (with_defaults x d) P E E' ->
    distinct_labels E' -> no_flattened_option E -> Conforms x E k id t -> Spared P E' k id t ->
    Conforms (with_defaults x d) E' k id t /\
    (forall v, Reads x E id n t (OOk v) ->
       exists w, Reads (with_defaults x d) E' id n t (OOk w) /\ moved (with_defaults x d) P E E' id v w) /\
    (forall w, Reads (with_defaults x d) E' id n t (OOk w) ->
       exists v, Reads x E id n t (OOk v) /\ moved (with_defaults x d) P E E' id v w).
Proof. exact spared_reads. Qed.
Print Assumptions C57_flattened_partial.

Theorem C57_flattened_text_partial :
  forall x d P E E' k id s t,
    rearranged (with_defaults x d) P E E' -> defaults_moved x (with_defaults x d) P E E' ->
    distinct_labels E' -> no_flattened_option E -> markup (parse_text s) = flat t -> Conforms x E k id t -> Spared P E' k id t ->
    exists N, forall fuel, N <= fuel ->
      (forall v, from_str x E fuel id s = OOk v ->
         exists w, from_str (with_defaults x d) E' fuel id s = OOk w /\ moved (with_defaults x d) P E E' id v w) /\
      (forall w, from_str (with_defaults x d) E' fuel id s = OOk w ->
         exists v, from_str x E fuel id s = OOk v /\ moved (with_defaults x d) P E E' id v w).
Proof. exact spared_read. Qed.
Print Assumptions C57_flattened_text_partial.

(** Orders get a note, addresses a zip code, codes a language and items tags;
    the address is flattened, and the code is an attribute with a text. *)
Definition orId := fldA "id" (a_attr ya0) (tint U8).
Definition orCode := fldA "code" (a_attr ya0) (tuser 2).
Definition orItem := fld "item" (TVec (BUser 3)).
Definition orAddr := fldA "addr" (a_flatten ya0) (tuser 1).
Definition adStreet := fld "street" tstr.
Definition adTown := fld "town" (TOpt (BSimple SString)).
Definition cdText := fldA "body" (a_text ya0) tstr.
Definition orE := [struct_ "Order" ya0 [orId; orCode; orItem; orAddr]; struct_ "Addr" ya0 [adStreet; adTown];
                   struct_ "Code" ya0 [cdText]; struct_ "Item" ya0 [fld "name" tstr]].
Definition orE' := [struct_ "Order" ya0 [orAddr; fld "note" (TOpt (BSimple SString)); orItem; orCode; orId];
                    struct_ "Addr" ya0 [adTown; fld "zip" (TOpt (BSimple SString)); adStreet];
                    struct_ "Code" ya0 [fldA "lang" (a_attr (a_default "default_string" ya0)) tstr; cdText];
                    struct_ "Item" ya0 [fld "name" tstr; fld "tag" (TVec (BSimple SString))]].
Definition orP (id : nat) : plan :=
  match id with 0 => [Some 3; None; Some 2; Some 1; Some 0] | 1 => [Some 1; None; Some 0] | 2 => [None; Some 0] | 3 => [Some 0; None] | _ => [] end.
Definition or1 := "<Order id=""7"" code=""c1""><street>S</street><item><name>A</name></item><town>T</town><item><name>B</name></item></Order>".
Definition nm l := Name l None None.
Definition lf n s := Elem (nm n) [] [] [Txt s].
Definition or1T := Elem (nm "Order") [Attr (nm "id") "7"; Attr (nm "code") "c1"] []
  [lf "street" "S"; Elem (nm "item") [] [] [lf "name" "A"]; lf "town" "T"; Elem (nm "item") [] [] [lf "name" "B"]].
Example C57_flattened_case :
  rearranged (with_defaults x0 (x_default x0)) orP orE orE' /\ defaults_moved x0 (with_defaults x0 (x_default x0)) orP orE orE' /\
  distinct_labels orE' /\ no_flattened_option orE /\ markup (parse_text or1) = flat or1T /\
  Conforms x0 orE 1 0 or1T /\ Spared orP orE' 1 0 or1T /\
  from_str x0 orE 40 0 or1 =
    OOk (VRec [VInt 7; VRec [VStr "c1"]; VVec [VRec [VStr "A"]; VRec [VStr "B"]]; VRec [VStr "S"; VOpt (Some (VStr "T"))]]) /\
  from_str (with_defaults x0 (x_default x0)) orE' 40 0 or1 =
    OOk (VRec [VRec [VOpt (Some (VStr "T")); VOpt None; VStr "S"]; VOpt None; VVec [VRec [VStr "A"; VVec []]; VRec [VStr "B"; VVec []]];
               VRec [VStr "my_default_value"; VStr "c1"]; VInt 7]).
Proof.
  split; [|split; [|split; [|split; [|split; [|split; [|split; [|split]]]]]]].
  - intros [|[|[|[|[|id]]]]]; cbn; auto; (split; [reflexivity|]; split; [reflexivity|]; split; [|repeat (constructor; try reflexivity); discriminate]).
    + apply Permutation_sym. change (Permutation (seq 0 4) (rev (seq 0 4))). apply Permutation_rev.
    + apply perm_swap.
    + apply Permutation_refl.
    + apply Permutation_refl.
  - split.
    + intros [|[|[|[|[|id]]]]] td fs f b d [Ht Hb] Hin Hty Hd; inversion Ht; subst td; inversion Hb; subst fs;
        repeat destruct Hin as [<-|Hin]; try contradiction; discriminate.
    + intros [|[|[|[|[|id]]]]] td td' vs d d' Ht Ht' Hb; inversion Ht; subst td; discriminate Hb.
  - intros [|[|[|[|[|id]]]]] td fs [Ht Hb]; inversion Ht; subst td; inversion Hb; subst fs; apply labels_nodup; reflexivity.
  - intros td fs f b Hin Hb Hf Ha Hfl. repeat destruct Hin as [<-|Hin]; try contradiction; inversion Hb; subst fs; repeat destruct Hf as [<-|Hf]; try contradiction; discriminate.
  - vm_compute. reflexivity.
  - apply (conformsb_ok _ orE 9). vm_compute. reflexivity.
  - apply (sparedb_ok _ _ 9). vm_compute. reflexivity.
  - vm_compute. reflexivity.
  - vm_compute. reflexivity.
Qed.
