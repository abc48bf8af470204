(** * C77: one deserializer for several values.

    Vocabulary: SpecTurn.v. *)
From Verif Require Import Str Num Xml XmlText Reader Schema De Conform SpecReader SpecTree SpecComplete SpecXml SpecTurn TurnProofs TurnText TextProofs PropertiesXml.
Open Scope list_scope.

(** ** In full
    Values that are read one after the other with one deserializer are those
    that are read from documents of their own; whatever is done next ([K])
    finds what follows the last element, at the depth of the first. *)
Definition C77_full : Prop :=
  forall x E fuel ids es vs, all_alone (read_alone x E fuel FEnd) ids es vs ->
  forall d evs rest f fl A (K : list value -> prog A), strip evs = concat es ++ rest -> List.length (concat es) <= fl ->
  fst (run (bind (read_in_turn x E fuel fl ids) K) (DState d (Stream evs f) None)) =
  fst (run (K vs) (DState d (Stream rest f) None)).

(** A flattened struct that has a field with the name of the element misses
    its end and goes on to the end of the document: it takes the second
    element, too. *)
Definition E77f : env := [struct_ "S" (a_flatten ya0) [fld "g" (TVec (BSimple SString))]].
Definition nm77 (s : string) : name := Name s None None.
Definition leaf77 (n s : string) : list event := [EStart (nm77 n) [] []; EChars s; EEnd (nm77 n)].
Definition elem77 (n : string) (c : list event) : list event := EStart (nm77 n) [] [] :: c ++ [EEnd (nm77 n)].
Lemma leaf77_element : forall n s, content (leaf77 n s).
Proof. intros n s. apply (content_elem (nm77 n) [] [] [EChars s] []); repeat constructor. Qed.
Lemma elem77_one : forall n c, content c -> one_element (elem77 n c).
Proof. intros n c Hc. exists (nm77 n), [], [], c. auto. Qed.

Theorem C77_refuted : ~ C77_full.
Proof.
  intros H.
  assert (Ha : all_alone (read_alone x0 E77f fuel FEnd) [0; 0] [leaf77 "g" "1"; leaf77 "g" "2"]
                 [VRec [VVec [VStr "1"]]; VRec [VVec [VStr "2"]]]).
  { repeat (apply alone_more; [split; [apply (elem77_one "g" [EChars _]); repeat constructor|vm_compute; reflexivity]|]). apply alone_none. }
  specialize (H _ _ _ _ _ _ Ha 0 (leaf77 "g" "1" ++ leaf77 "g" "2") [] FEnd 20 _ (fun vs => Ret vs) eq_refl ltac:(cbn; lia)).
  vm_compute in H. discriminate H.
Qed.
Print Assumptions C77_refuted.

(** ** What holds
    All types, all elements.  Missing for the full claim: flattened types that
    read their document to its end; with an error behind the element ([f] in
    [own_alone]) they are included. *)
Theorem C77_in_turn_partial :
  forall x E fuel ids es vs, all_alone (own_alone x E fuel) ids es vs ->
  forall d evs rest f fl A (K : list value -> prog A), strip evs = concat es ++ rest -> List.length (concat es) <= fl ->
  fst (run (bind (read_in_turn x E fuel fl ids) K) (DState d (Stream evs f) None)) =
  fst (run (K vs) (DState d (Stream rest f) None)).
Proof. exact all_in_turn. Qed.
Print Assumptions C77_in_turn_partial.

(** A struct, a unit variant (which stops in front of its text), an element
    with a variant for its tag (which stops at the start tag) and a struct
    again, inside of a list element. *)
Definition E77 : env :=
  [struct_ "P" ya0 [fld "x" (tint I32)];
   enum_ "C" ya0 [Variant "Red" ya0 VbUnit; Variant "Blue" ya0 VbUnit] (VVar 0 []);
   enum_ "T" (a_tag "t" ya0) [Variant "One" ya0 VbUnit; Variant "Two" ya0 VbUnit] (VVar 0 [])].
Definition text77 :=
  "<l><p><x>1</x><y/></p><c>Blue</c><!-- n --><t t=""Two""/><p><x>2</x></p><end/></l>".
Definition es77 : list (list event) :=
  [elem77 "p" (leaf77 "x" "1" ++ elem77 "y" []); elem77 "c" [EChars "Blue"];
   [EStart (nm77 "t") [Attr (nm77 "t") "Two"] []; EEnd (nm77 "t")]; elem77 "p" (leaf77 "x" "2")].
Definition vs77 : list value := [VRec [VInt 1]; VVar 1 []; VVar 1 []; VRec [VInt 2]].
Example C77_case :
  all_alone (own_alone x0 E77 fuel) [0; 1; 2; 0] es77 vs77 /\
  fst (run (let* _ := next_ in let* vs := read_in_turn x0 E77 fuel 40 [0; 1; 2; 0] in
            let* e := next_ in Depth (fun d => Ret (vs, e, d)))
           (d_init (parse_text text77)))
  = OOk (vs77, EStart (nm77 "end") [] [], 2).
Proof.
  split; [|vm_compute; reflexivity].
  unfold es77, vs77. repeat apply alone_more; [..|apply alone_none];
    (eexists; exists FEnd; split; [reflexivity|]; split; [left; reflexivity|]; split; [|vm_compute; reflexivity]).
  - apply elem77_one. apply (content_elem (nm77 "x") [] [] [EChars "1"] (elem77 "y" [])); [repeat constructor|].
    apply (content_elem (nm77 "y") [] [] [] []); constructor.
  - apply elem77_one. repeat constructor.
  - exists (nm77 "t"), [Attr (nm77 "t") "Two"], [], []. split; [constructor|reflexivity].
  - apply elem77_one, leaf77_element.
Qed.
(** What the flattened struct makes of the two elements. *)
Example C77_case_flattened :
  fst (run (de x0 E77f fuel 0) (d_init (parse_text "<g>1</g><g>2</g>"))) = OOk (VRec [VVec [VStr "1"; VStr "2"]]).
Proof. vm_compute. reflexivity. Qed.

(** ** From a text
    Every root element of a text is read as if it were the only one. *)
Theorem C77_text_partial :
  forall x E fuel ids ts vs s, own_documents x E fuel ids ts vs -> several_documents ts s ->
  exists N, forall fl, N <= fl ->
  fst (run (read_in_turn x E fuel fl ids) (d_init (parse_text s))) = OOk vs.
Proof. exact texts_in_turn. Qed.
Print Assumptions C77_text_partial.

Definition p77 (s : string) : string := "<p><x>" +++ s +++ "</x></p>".
Definition t77 (s : string) : xnode := XElem "p" [] [XElem "x" [] [XTxt s]].
Ltac digit_dark := intros [H|[H|[H|H]]]; discriminate H.
Lemma p77_one : forall c, "0"%char = c \/ "1"%char = c -> element (t77 (String c "")) (p77 (String c "")).
Proof.
  intros c Hc. unfold t77, p77.
  refine (el_full "p" [] "" "" _ ("<x>" +++ String c "" +++ "</x>") "" _ _ _ _ _); [left; name|apply as_none|white_space| |white_space].
  refine (co_element "" "" [] (XElem "x" [] [XTxt (String c "")]) ("<x>" +++ String c "" +++ "</x>") [] "" _ _ _ _);
    [apply run_end; text_only|apply tn_none; white_space| |apply (co_end _ ""); [apply run_end; text_only|apply tn_none; white_space]].
  refine (el_full "x" [] "" "" _ (String c "") "" _ _ _ _ _); [left; name|apply as_none|white_space| |white_space].
  apply (co_end _ (String c "")).
  - apply run_end. destruct Hc as [<-|<-]; text_only.
  - refine (tn_some "" (String c "") "" _ _ _ _); [white_space|white_space|destruct Hc as [<-|<-]; digit_dark|].
    exists "", c. split; [reflexivity|destruct Hc as [<-|<-]; digit_dark].
Qed.
Lemma p77_denotes : forall s, denotes no_scope (t77 s) (Elem (nm77 "p") [] [] [Elem (nm77 "x") [] [] [Txt s]]).
Proof.
  intros s. unfold t77.
  assert (Hs : opens_scope no_scope [] no_scope) by (intros p; right; split; [intros k u []|reflexivity]).
  assert (Hl : lists [] no_scope) by (split; [exact I|reflexivity]).
  refine (de_elem no_scope no_scope "p" [] _ _ [] [] _ _ _ Hs _ (an_end _) Hl _); [constructor|intros k u p []|apply en_none; [name|left; reflexivity]|].
  constructor; [|constructor].
  refine (de_elem no_scope no_scope "x" [] _ _ [] [] _ _ _ Hs _ (an_end _) Hl _); [constructor|intros k u p []|apply en_none; [name|left; reflexivity]|].
  constructor; [constructor|constructor].
Qed.
Example C77_case_text :
  own_documents x0 E77 fuel [0; 0] [t77 "0"; t77 "1"] [VRec [VInt 0]; VRec [VInt 1]] /\
  several_documents [t77 "0"; t77 "1"] (p77 "0" +++ "<!-- n -->" +++ p77 "1") /\
  fst (run (read_in_turn x0 E77 fuel 20 [0; 0]) (d_init (parse_text (p77 "0" +++ "<!-- n -->" +++ p77 "1")))) = OOk [VRec [VInt 0]; VRec [VInt 1]].
Proof.
  assert (Hd : forall t e, element t e -> xml_document t e).
  { intros t e He. exists "", "", "", e, "". split; [left; reflexivity|]. split; [constructor|]. split; [left; reflexivity|].
    split; [exact He|]. split; [constructor|]. rewrite TextProofs.sapp_nil. reflexivity. }
  split; [|split; [|vm_compute; reflexivity]].
  - refine (own_more x0 E77 fuel 0 _ _ _ _ _ _ _ _ eq_refl eq_refl (p77_denotes "0") (Hd _ _ (p77_one _ (or_introl eq_refl))) _ _); [vm_compute; reflexivity|].
    refine (own_more x0 E77 fuel 0 _ _ _ _ _ _ _ _ eq_refl eq_refl (p77_denotes "1") (Hd _ _ (p77_one _ (or_intror eq_refl))) _ (own_none _ _ _)).
    vm_compute; reflexivity.
  - exists "", "", "", (p77 "0" +++ "<!-- n -->" +++ p77 "1" +++ "" +++ "").
    split; [left; reflexivity|]. split; [constructor|]. split; [left; reflexivity|]. split; [|reflexivity].
    apply els_more; [exact (p77_one _ (or_introl eq_refl))| |].
    + apply (mi_comment "<!-- n -->" ""); [|constructor].
      exists " n ". repeat split; [unfold every; each; legal|apply not_inside; [discriminate|reflexivity]].
    + apply els_more; [exact (p77_one _ (or_intror eq_refl))|constructor|constructor].
Qed.
