(** * C59: a flattened struct is read as its fields would be.

    Vocabulary: SpecSpread.v ([spread_types]: the fields of flattened structs
    stand in place of the flattened fields; [spread]: the same value, in these
    types), SpecRewrite.v ([Rewritable]), SpecValue.v ([Conforms]). *)
From Verif Require Import Str Num Xml XmlText Reader Schema De Conform SpecTree SpecText SpecStruct SpecValue SpecMove SpecComplete SpecRewrite SpecSpread
  FitsCheck FuelProofs SpreadProofs SpreadCheck.
Open Scope list_scope.

(** ** In full *)
Definition C59_full : Prop :=
  forall x d E E' id s, spread_types E E' -> spread_defaults x (with_defaults x d) E E' ->
  exists N, forall fuel, N <= fuel ->
    (forall v, from_str x E fuel id s = OOk v -> exists v', from_str (with_defaults x d) E' fuel id s = OOk v' /\ spread E id v v') /\
    (forall v', from_str (with_defaults x d) E' fuel id s = OOk v' -> exists v, from_str x E fuel id s = OOk v /\ spread E id v v').

(** Two texts around an element that belongs to a field beside the flattened
    one: the flattened struct reads "xy", as what is left of the document is
    written out and read again, whereas a struct keeps its last text. *)
Definition twoT := struct_ "T" ya0 [fldA "t" (a_text ya0) tstr].
Definition twoE := [struct_ "S" ya0 [fld "b" (tint U8); fldA "f" (a_flatten ya0) (tuser 1)]; twoT].
Definition twoE' := [struct_ "S" ya0 [fld "b" (tint U8); fldA "t" (a_text ya0) tstr]; twoT].
Definition twoS := "<S>x<b>1</b>y</S>".
Ltac kept := apply spf_kept; [reflexivity|reflexivity|intros ? ?; discriminate|].
Lemma two_spread : spread_types twoE twoE' /\ spread_defaults x0 (with_defaults x0 (x_default x0)) twoE twoE'.
Proof.
  split.
  - intros [|[|[|id]]] td Ht; inversion Ht; subst td.
    + exists (struct_ "S" ya0 [fld "b" (tint U8); fldA "t" (a_text ya0) tstr]). split; [reflexivity|]. split; [reflexivity|].
      split; [split; [reflexivity|discriminate]|]. split.
      * kept. apply (spf_flat twoE ya0 ya0 (fldA "f" (a_flatten ya0) (tuser 1)) 1 twoT [fldA "t" (a_text ya0) tstr] [fldA "t" (a_text ya0) tstr] [] []);
          try reflexivity; [split; reflexivity|kept; constructor|constructor].
      * apply labels_nodup. reflexivity.
    + exists twoT. split; [reflexivity|]. split; [reflexivity|]. split; [split; [reflexivity|discriminate]|]. split; [kept; constructor|].
      apply labels_nodup. reflexivity.
  - split.
    + intros [|[|[|id]]] td fs f b e [Ht Hb] Hin Hty Hd; inversion Ht; subst td; inversion Hb; subst fs;
        repeat destruct Hin as [<-|Hin]; try contradiction; discriminate.
    + intros [|[|[|id]]] td td' vs e e' Ht Ht' Hb; inversion Ht; subst td; discriminate Hb.
Qed.
Theorem C59_two_texts_refuted : ~ C59_full.
Proof.
  intros H. destruct (H x0 (x_default x0) twoE twoE' 0 twoS (proj1 two_spread) (proj2 two_spread)) as [N HN].
  destruct (HN (max N 40) (Nat.le_max_l _ _)) as [Hf _].
  assert (H1 : from_str x0 twoE (max N 40) 0 twoS = OOk (VRec [VInt 1; VRec [VStr "xy"]])).
  { unfold from_str. rewrite (fuel_more x0 twoE 0 (parse_text twoS) 40 _ (Nat.le_max_r _ _)); vm_compute; [reflexivity|discriminate]. }
  assert (H2 : from_str (with_defaults x0 (x_default x0)) twoE' (max N 40) 0 twoS = OOk (VRec [VInt 1; VStr "y"])).
  { unfold from_str. rewrite (fuel_more (with_defaults x0 (x_default x0)) twoE' 0 (parse_text twoS) 40 _ (Nat.le_max_r _ _)); vm_compute; [reflexivity|discriminate]. }
  destruct (Hf _ H1) as (v' & Hv & Hs). rewrite H2 in Hv. inversion Hv. subst v'. clear - Hs.
  inversion Hs as [id td fs l l' [Ht Hb] Hr| | | |]; subst; try discriminate. inversion Ht. subst td. inversion Hb. subst fs. clear Ht Hb Hs.
  inversion Hr as [|f fs v w l l' Hff Hi Hr2|]; subst; try discriminate. clear Hr.
  inversion Hr2 as [| |f1 id1 td1 gs fs1 vg vg' l l' Hff1 Hty1 [Ht1 Hb1] Hg Hr3 Hv]; subst; try discriminate. injection Hty1 as <-.
  inversion Ht1. subst td1. inversion Hb1. subst gs. inversion Hr3. subst. rewrite app_nil_r in H2. subst vg'. clear - Hg.
  inversion Hg as [|f fs v w l l' Hff Hi Hr| ]; subst; try discriminate. inversion Hi as [b v w Hb| | | | |]; subst. inversion Hb.
Qed.
Print Assumptions C59_two_texts_refuted.

(** The type of a flattened field is read from a document of its own, whose
    root element must be in the namespace of the type: <S> is not, and the
    flattened struct cannot be read, whereas its fields can. *)
Definition nsA := a_prefix "p" (a_ns [("p", "v")] ya0).
Definition nsT := struct_ "T" ya0 [fldA "t" (a_text ya0) tstr].
Definition nsE := [struct_ "S" nsA [fldA "f" (a_flatten ya0) (tuser 1)]; nsT].
Definition nsE' := [struct_ "S" nsA [fldA "t" (a_text ya0) tstr]; nsT].
Definition nsS := "<p:S xmlns:p='v'>x</p:S>".
Lemma ns_spread : spread_types nsE nsE' /\ spread_defaults x0 (with_defaults x0 (x_default x0)) nsE nsE'.
Proof.
  split.
  - intros [|[|[|id]]] td Ht; inversion Ht; subst td.
    + exists (struct_ "S" nsA [fldA "t" (a_text ya0) tstr]). split; [reflexivity|]. split; [reflexivity|].
      split; [split; [reflexivity|intros; reflexivity]|]. split.
      * apply (spf_flat nsE nsA nsA (fldA "f" (a_flatten ya0) (tuser 1)) 1 nsT [fldA "t" (a_text ya0) tstr] [fldA "t" (a_text ya0) tstr] [] []);
          try reflexivity; [split; reflexivity|kept; constructor|constructor].
      * apply labels_nodup. reflexivity.
    + exists nsT. split; [reflexivity|]. split; [reflexivity|]. split; [split; [reflexivity|intros; reflexivity]|]. split; [kept; constructor|].
      apply labels_nodup. reflexivity.
  - split.
    + intros [|[|[|id]]] td fs f b e [Ht Hb] Hin Hty Hd; inversion Ht; subst td; inversion Hb; subst fs;
        repeat destruct Hin as [<-|Hin]; try contradiction; discriminate.
    + intros [|[|[|id]]] td td' vs e e' Ht Ht' Hb; inversion Ht; subst td; discriminate Hb.
Qed.
Theorem C59_namespace_refuted : ~ C59_full.
Proof.
  intros H. destruct (H x0 (x_default x0) nsE nsE' 0 nsS (proj1 ns_spread) (proj2 ns_spread)) as [N HN].
  destruct (HN (max N 40) (Nat.le_max_l _ _)) as [_ Hf].
  assert (H2 : from_str (with_defaults x0 (x_default x0)) nsE' (max N 40) 0 nsS = OOk (VRec [VStr "x"])).
  { unfold from_str. rewrite (fuel_more (with_defaults x0 (x_default x0)) nsE' 0 (parse_text nsS) 40 _ (Nat.le_max_r _ _)); vm_compute; [reflexivity|discriminate]. }
  assert (H1 : exists m, from_str x0 nsE (max N 40) 0 nsS = OErr m).
  { eexists. unfold from_str. rewrite (fuel_more x0 nsE 0 (parse_text nsS) 40 _ (Nat.le_max_r _ _)); [vm_compute; reflexivity|].
    vm_compute. intros Hd. discriminate Hd. }
  destruct H1 as [m H1]. destruct (Hf _ H2) as (v & Hv & _). rewrite H1 in Hv. discriminate Hv.
Qed.
Print Assumptions C59_namespace_refuted.

(** ** What holds
    Missing for the full claim: documents with several texts in one element,
    with prefixes that change their meaning, with text outside of the root
    element, and documents that do not conform to the types.  Fields of
    flattened structs may be moved out at any depth, and in any number of
    types at once; lists, options, attributes, texts and enums may contain
    such types. *)
Theorem C59_spread_partial :
  forall x d E E' k k' id s t, spread_types E E' -> spread_defaults x (with_defaults x d) E E' ->
    markup (parse_text s) = flat t -> Rewritable [] t -> Conforms x E k id t -> Conforms (with_defaults x d) E' k' id t ->
    exists N, forall fuel, N <= fuel ->
      (forall v, from_str x E fuel id s = OOk v -> exists v', from_str (with_defaults x d) E' fuel id s = OOk v' /\ spread E id v v') /\
      (Welcome E id t -> forall v', from_str (with_defaults x d) E' fuel id s = OOk v' -> exists v, from_str x E fuel id s = OOk v /\ spread E id v v').
Proof. exact spread_read. Qed.
Print Assumptions C59_spread_partial.

(** Structs flattened in flattened structs, with attributes, namespaces, and
    lists of structs that have flattened fields themselves. *)
Definition shO := a_ns [("o", "u")] ya0.
Definition shX := fldA "x" (a_attr ya0) (tint U8).
Definition shC := fld "c" tstr.
Definition shD := fldA "d" (a_prefix "o" ya0) (tint U8).
Definition shI := fld "items" (TVec (BUser 3)).
Definition shY := fldA "y" (a_attr ya0) tstr.
Definition shW := fld "e" (TOpt (BSimple SString)).
Definition shF n id := fldA n (a_flatten ya0) (tuser id).
Definition shE := [struct_ "S" ya0 [shX; shF "f" 1; shC]; struct_ "T" shO [shD; shF "g" 2; shI]; struct_ "U" ya0 [shY; shW]; struct_ "W" ya0 [shF "h" 2]].
Definition shE' := [struct_ "S" shO [shX; shD; shY; shW; shI; shC]; struct_ "T" shO [shD; shY; shW; shI]; struct_ "U" ya0 [shY; shW]; struct_ "W" ya0 [shY; shW]].
Definition shS := "<S x='1' y='q' xmlns:o='u'><o:d>2</o:d><items y='r'><e>t</e></items><c>z</c><e>w</e><items y='s'/></S>".
Definition shT :=
  let m := [("o", "u")] in let q l := Name l None None in
  Elem (q "S") [Attr (q "x") "1"; Attr (q "y") "q"] m
    [Elem (Name "d" (Some "u") (Some "o")) [] m [Txt "2"]; Elem (q "items") [Attr (q "y") "r"] m [Elem (q "e") [] m [Txt "t"]];
     Elem (q "c") [] m [Txt "z"]; Elem (q "e") [] m [Txt "w"]; Elem (q "items") [Attr (q "y") "s"] m []].
Lemma sh_U : forall ra, SpreadFields shE ra ya0 [shY; shW] [shY; shW].
Proof. intros ra. kept. kept. constructor. Qed.
Lemma sh_spread : spread_types shE shE' /\ spread_defaults x0 (with_defaults x0 (x_default x0)) shE shE'.
Proof.
  assert (HI : forall ra ra', flabel ra shI = flabel ra' shI -> SpreadFields shE ra ra' [shI] [shI]).
  { intros ra ra' H. apply spf_kept; [reflexivity|congruence|intros ? H'; discriminate H'|constructor]. }
  assert (HU : forall ra', SpreadFields shE shO ra' [shF "g" 2; shI] ([shY; shW] ++ [shI])).
  { intros ra'. eapply spf_flat with (id := 2); [reflexivity|reflexivity|split; reflexivity|apply sh_U|apply HI; reflexivity]. }
  assert (HT : SpreadFields shE shO shO [shD; shF "g" 2; shI] [shD; shY; shW; shI]).
  { kept. exact (HU shO). }
  split.
  - intros [|[|[|[|[|id]]]]] td Ht; inversion Ht; subst td; (eexists; split; [reflexivity|]; split; [reflexivity|]; split; [split; [reflexivity|discriminate]|]);
      (split; [|apply labels_nodup; reflexivity]).
    + kept. apply (spf_flat shE shO ya0 (shF "f" 1) 1 (struct_ "T" shO [shD; shF "g" 2; shI]) [shD; shF "g" 2; shI] [shD; shY; shW; shI] [shC] [shC]);
        [reflexivity|reflexivity|split; reflexivity|exact HT|kept; constructor].
    + exact HT.
    + apply sh_U.
    + apply (spf_flat shE ya0 ya0 (shF "h" 2) 2 (struct_ "U" ya0 [shY; shW]) [shY; shW] [shY; shW] [] []);
        [reflexivity|reflexivity|split; reflexivity|apply sh_U|constructor].
  - split.
    + intros [|[|[|[|[|id]]]]] td fs f b e [Ht Hb] Hin Hty Hd; inversion Ht; subst td; inversion Hb; subst fs;
        repeat destruct Hin as [<-|Hin]; try contradiction; discriminate.
    + intros [|[|[|[|[|id]]]]] td td' vs e e' Ht Ht' Hb; inversion Ht; subst td; discriminate Hb.
Qed.
Lemma sh_welcome : Welcome shE 0 shT.
Proof.
  assert (Hu : forall cn id, elabel cn = ("u", "d") -> ~ read_as shE cn id).
  { intros cn id Hc H. inversion H as [id0 td fs f [Ht Hb] Hin Hl Hty|id0 td vs df i b t Ht Hb]; subst.
    - rewrite Hc in Hl. destruct id0 as [|[|[|[|[|id0]]]]]; inversion Ht; subst td; inversion Hb; subst fs;
        repeat destruct Hin as [<-|Hin]; try contradiction; vm_compute in Hl; try discriminate Hl; discriminate Hty.
    - destruct id0 as [|[|[|[|[|id0]]]]]; inversion Ht; subst td; discriminate Hb. }
  assert (Hn : forall t, (fix fine (t : node) : Prop := match t with Txt _ => True | Elem n _ _ ks =>
      (n_ns n = None \/ elabel n = ("u", "d")) /\ (fix all l := match l with [] => True | k :: r => fine k /\ all r end) ks end) t ->
      forall id, (forall n a m ks, t = Elem n a m ks -> n_ns n = None) -> Welcome shE id t).
  { induction t as [s|n a m ks IH] using TreeFacts.node_ind'; intros Hf id Hr; [constructor|]. destruct Hf as [_ Hks]. constructor.
    - intros td fs f _ _ _ td1 _. unfold bad_namespace. rewrite (Hr n a m ks eq_refl). reflexivity.
    - intros cn ca cm ck id1 Hin Hra. apply (IH _ Hin).
      + clear IH Hra Hr. induction ks as [|k r IHr]; [contradiction|]. destruct Hks as [Hk Hks]. destruct Hin as [->|Hin]; [exact Hk|exact (IHr Hks Hin)].
      + intros n0 a0 m0 ks0 Heq. injection Heq as <- <- <- <-.
        assert (Hc : n_ns cn = None \/ elabel cn = ("u", "d")).
        { clear IH Hra Hr. induction ks as [|k r IHr]; [contradiction|]. destruct Hks as [Hk Hks]. destruct Hin as [->|Hin]; [exact (proj1 Hk)|exact (IHr Hks Hin)]. }
        destruct Hc as [Hc|Hc]; [exact Hc|]. destruct (Hu cn id1 Hc Hra). }
  apply Hn; [|intros n a m ks Heq; injection Heq as <- _ _ _; reflexivity].
  repeat split; try (left; reflexivity); right; reflexivity.
Qed.
Example C59_case :
  spread_types shE shE' /\ spread_defaults x0 (with_defaults x0 (x_default x0)) shE shE' /\
  markup (parse_text shS) = flat shT /\ Rewritable [] shT /\ Conforms x0 shE 3 0 shT /\ Conforms (with_defaults x0 (x_default x0)) shE' 3 0 shT /\
  Welcome shE 0 shT /\
  from_str x0 shE 60 0 shS = OOk (VRec [VInt 1; VRec [VInt 2; VRec [VStr "q"; VOpt (Some (VStr "w"))];
    VVec [VRec [VRec [VStr "r"; VOpt (Some (VStr "t"))]]; VRec [VRec [VStr "s"; VOpt None]]]]; VStr "z"]) /\
  from_str (with_defaults x0 (x_default x0)) shE' 60 0 shS = OOk (VRec [VInt 1; VInt 2; VStr "q"; VOpt (Some (VStr "w"));
    VVec [VRec [VStr "r"; VOpt (Some (VStr "t"))]; VRec [VStr "s"; VOpt None]]; VStr "z"]).
Proof.
  split; [exact (proj1 sh_spread)|]. split; [exact (proj2 sh_spread)|]. split; [vm_compute; reflexivity|].
  split; [apply rewritableb_ok; vm_compute; reflexivity|].
  split; [apply (conformsb_ok x0 shE 9); vm_compute; reflexivity|].
  split; [apply (conformsb_ok (with_defaults x0 (x_default x0)) shE' 9); vm_compute; reflexivity|].
  split; [exact sh_welcome|]. split; vm_compute; reflexivity.
Qed.
