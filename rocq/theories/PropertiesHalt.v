(** * C17: termination by the names of the elements.

    Vocabulary: SpecHalt.v. *)
From Verif Require Import Str Num Xml XmlText Reader Schema De Ser Conform SpecTree SpecStruct SpecTerm SpecComplete SpecHalt
  HaltProofs HaltCheck HaltText HaltRest HaltWitness TextReads.
Open Scope list_scope.

(** Structs in structs, enums with payloads, attributes of user types and
    flattened fields: every text, well formed or not, in which the elements and
    texts have names that do not get into each other's way ([well_named]), if
    what is left for flattened fields is read to an end.  The naming conditions
    are needed: see the documents below. *)
Theorem C17_named_partial :
  forall x E C id s, well_named E (markup (parse_text s)) C ->
  (forall n, root_named (parse_text s) n -> C id n) ->
  (forall i t, attr_text E (markup (parse_text s)) i t -> exists f, from_str x E f i (attr_document E i t) <> OFuel) ->
  (forall i n, C i n \/ ~ C i n) ->
  (forall i t, rest_text E (markup (parse_text s)) C i t -> exists f, from_str x E f i t <> OFuel) ->
  exists N, forall fuel, N <= fuel -> from_str x E fuel id s <> OFuel.
Proof. exact C17_named_any. Qed.
Print Assumptions C17_named_partial.

(** For flattened fields it is enough that their types are read to an end from
    every text whose root element has the local name of the struct's element. *)
Theorem C17_flattened_partial :
  forall x E C id s, well_named E (markup (parse_text s)) C ->
  (forall n, root_named (parse_text s) n -> C id n) ->
  (forall i t, attr_text E (markup (parse_text s)) i t -> exists f, from_str x E f i (attr_document E i t) <> OFuel) ->
  (forall i n, C i n \/ ~ C i n) ->
  (forall id' td fs f i n, struct_type E id' td fs -> In f fs -> flat_field f = true -> base_of (f_ty f) = BUser i -> C id' n ->
     forall t, (forall n', root_named (parse_text t) n' -> n_local n' = n_local n) -> exists k, from_str x E k i t <> OFuel) ->
  exists N, forall fuel, N <= fuel -> from_str x E fuel id s <> OFuel.
Proof. exact C17_flattened_any. Qed.
Print Assumptions C17_flattened_partial.

(** Without attributes of user types and flattened fields the loops run at most as often as there
    are events. *)
Theorem C17_named_bound_partial :
  forall x E C id s fuel, well_named E (markup (parse_text s)) C ->
  (forall n, root_named (parse_text s) n -> C id n) ->
  (forall i t, ~ attr_text E (markup (parse_text s)) i t) ->
  (forall i t, ~ rest_text E (markup (parse_text s)) C i t) ->
  List.length (s_evs (parse_text s)) + 2 <= fuel -> from_str x E fuel id s <> OFuel.
Proof. exact C17_named_bound. Qed.
Print Assumptions C17_named_bound_partial.

(** A library: structs with elements of simple type at every level, an enum with
    payloads, an enum as the type of an attribute; a document with unknown,
    missing and repeated elements that is cut off. *)
Definition E_lib := [
  struct_ "Library" ya0 [fld "name" tstr; fld "shelf" (TVec (BUser 1))];
  struct_ "Shelf" ya0 [fldA "lang" (a_attr ya0) (TOpt (BUser 3)); fld "kind" (tuser 3); fld "book" (TVec (BUser 2)); fld "what" (tuser 4)];
  struct_ "Book" ya0 [fld "title" tstr; fld "year" (TOpt (BSimple (SInt U16))); fld "Book" (TOpt (BUser 2))];
  enum_ "Kind" ya0 [vunit "Oak"; vunit "Fir"] (VVar 0 []);
  enum_ "What" ya0 [vnew "Thing" (tuser 2); vnew "Count" (tint U8)] (VVar 0 [])].
Definition lib_names : list (nat * string) :=
  [(0, "Library"); (1, "shelf"); (2, "book"); (2, "Book"); (2, "Thing"); (3, "kind"); (4, "what")].
Definition lib_text (rest : string) : string :=
  "<Library><name>n</name><shelf lang=""Fir""><zz><book><title/></book></zz><kind>Oak</kind><book><title>b</title><Book><title>c</title><year>7</year></Book></book>" +++
  "<what><Thing><title>t</title></Thing><Count>5</Count></what></shelf>" +++ rest.
Definition lib_cut : string := lib_text "<shelf lang=""Elm""><kind>Oak</kind><book><title>a</title>".
Example C17_named_case :
  well_named E_lib (markup (parse_text lib_cut)) (listed lib_names) /\
  (forall n, root_named (parse_text lib_cut) n -> listed lib_names 0 n) /\
  (forall i t, attr_text E_lib (markup (parse_text lib_cut)) i t -> exists f, from_str x0 E_lib f i (attr_document E_lib i t) <> OFuel) /\
  attr_text E_lib (markup (parse_text lib_cut)) 3 "Elm" /\
  (forall i t, ~ rest_text E_lib (markup (parse_text lib_cut)) (listed lib_names) i t) /\
  from_str x0 E_lib 60 0 lib_cut = OErr "Unexpected end of stream: still inside the root element" /\
  from_str x0 E_lib 60 0 (lib_text "</Library>") = OOk (VRec [VStr "n"; VVec [VRec [VOpt (Some (VVar 1 [])); VVar 0 [];
    VVec [VRec [VStr "b"; VOpt None; VOpt (Some (VRec [VStr "c"; VOpt (Some (VInt 7)); VOpt None]))]]; VVar 1 [VInt 5]]]]).
Proof.
  split; [apply well_namedb_ok; vm_compute; reflexivity|].
  split; [intros n (a & m & r & Hr); vm_compute in Hr; injection Hr as <- _ _ _; left; reflexivity|].
  split; [apply (attr_texts_check _ _ _ 9); vm_compute; reflexivity|].
  split; [apply attr_texts_ok; vm_compute; auto|].
  split.
  { intros i t Ht. apply rest_texts_all in Ht. destruct Ht as (id & n & _ & Hin). vm_compute in Hin. exact Hin. }
  split; vm_compute; reflexivity.
Qed.

(** People with flattened fields, a struct and an enum with payloads, at every
    level; a document with unknown elements that is cut off. *)
Definition E_people := [
  struct_ "Person" ya0 [fld "name" tstr; fldA "home" (a_flatten ya0) (tuser 1); fldA "contact" (a_flatten ya0) (TOpt (BUser 2)); fld "pet" (TVec (BUser 3))];
  struct_ "Home" ya0 [fld "street" tstr; fld "zip" (TOpt (BSimple (SInt U16)))];
  enum_ "Contact" ya0 [vnew "mail" tstr; vnew "phone" (tint U32)] (VVar 0 []);
  struct_ "Pet" ya0 [fld "name" tstr; fldA "home" (a_flatten ya0) (tuser 1)]].
Definition people_names : list (nat * string) := [(0, "Person"); (3, "pet")].
Definition people_text (rest : string) : string :=
  "<Person><name>n</name><street>s</street><zz><name/></zz><pet><street>t</street><phone>1</phone><name>m</name></pet><mail>a</mail>" +++ rest.
Example C17_flattened_case :
  well_named E_people (markup (parse_text (people_text "<zip>"))) (listed people_names) /\
  (forall n, root_named (parse_text (people_text "<zip>")) n -> listed people_names 0 n) /\
  (forall i t, ~ attr_text E_people (markup (parse_text (people_text "<zip>"))) i t) /\
  (forall i n, listed people_names i n \/ ~ listed people_names i n) /\
  (forall id' td fs f i n, struct_type E_people id' td fs -> In f fs -> flat_field f = true -> base_of (f_ty f) = BUser i -> listed people_names id' n ->
     forall t, (forall n', root_named (parse_text t) n' -> n_local n' = n_local n) -> exists k, from_str x0 E_people k i t <> OFuel) /\
  from_str x0 E_people 60 0 (people_text "<zip>") = OErr "Unexpected end of stream: still inside the root element" /\
  from_str x0 E_people 60 0 (people_text "<zip>7</zip></Person>") = OOk (VRec [VStr "n"; VRec [VStr "s"; VOpt (Some (VInt 7))]; VOpt (Some (VVar 0 [VStr "a"]));
    VVec [VRec [VStr "m"; VRec [VStr "t"; VOpt None]]]]).
Proof.
  split; [apply well_namedb_ok; vm_compute; reflexivity|].
  split; [intros n (a & m & r & Hr); vm_compute in Hr; injection Hr as <- _ _ _; left; reflexivity|].
  split; [intros i t Ht; apply attr_texts_all in Ht; vm_compute in Ht; exact Ht|].
  split; [apply listed_dec|].
  split; [|split; vm_compute; reflexivity].
  intros id' td fs f i n [Htd Hb] Hf Hff Hu HC t Ht.
  assert (Hn : n_local n = "Person" \/ n_local n = "pet").
  { unfold listed, people_names in HC. cbn [In] in HC. destruct HC as [HC|[HC|[]]]; injection HC as _ HC; rewrite <- HC; auto. }
  assert (Hhome : exists k, from_str x0 E_people k 1 t <> OFuel).
  { destruct (C17_root_text x0 E_people (fun _ => False) 1 _ _ ltac:(intros j []) (conj eq_refl eq_refl)) with (s := t) as [N HN].
    - intros g Hg. cbn [In] in Hg. destruct Hg as [<-|[<-|[]]]; (split; [reflexivity|split; [discriminate|intros _ j Hj; discriminate]]).
    - intros n' g Hr Hg _ _. left. intros Hx. apply (f_equal snd) in Hx. unfold elabel in Hx. cbn [snd] in Hx. rewrite (Ht n' Hr) in Hx.
      cbn [In] in Hg. destruct Hg as [<-|[<-|[]]]; destruct Hn as [Hn|Hn]; rewrite Hn in Hx; discriminate.
    - exists N. apply HN. lia. }
  destruct id' as [|[|[|[|id']]]]; cbn in Htd; try discriminate; try (destruct id'; discriminate); injection Htd as <-; cbn in Hb; try discriminate;
    injection Hb as <-; cbn [In] in Hf; repeat (destruct Hf as [<-|Hf]; try discriminate); try (destruct Hf); cbn in Hu; injection Hu as <-.
  - exact Hhome.
  - exists (List.length (s_evs (parse_text t)) + 2).
    apply (C17_named_bound x0 E_people (fun j n' => j = 2 /\ n_local n' = n_local n)); [| | | |lia].
    + intros j n' tdj [-> Hn'] Hj. cbn in Hj. injection Hj as <-. cbn [t_body enum_].
      intros s i fl ty Hv. unfold variant_for in Hv. destruct (find _ _) as [[k v]|] eqn:Hfind; [|discriminate]. injection Hv as _ Hbody.
      apply find_some in Hfind. destruct Hfind as [Hin Hs]. cbn [snd] in Hs. rewrite Hbody in Hs. apply String.eqb_eq in Hs.
      cbn in Hin. split; [reflexivity|]. rewrite Hn'.
      destruct Hin as [Hin|[Hin|[]]]; injection Hin as <- <-; cbn in Hs, Hbody; subst s; injection Hbody as _ <-;
        (split; [destruct Hn as [Hn|Hn]; rewrite Hn; discriminate|intros i1 Hi; discriminate]).
    + intros n' Hr. split; [reflexivity|exact (Ht n' Hr)].
    + intros j u (id & td & fs & g & _ & _ & _ & _ & [Htd Hb] & Hg & Ha & _). revert Ha.
      destruct id as [|[|[|[|id]]]]; cbn in Htd; try discriminate; try (destruct id; discriminate); injection Htd as <-; cbn in Hb; try discriminate;
        injection Hb as <-; cbn [In] in Hg; repeat (destruct Hg as [<-|Hg]; try discriminate); destruct Hg.
    + intros j u (id & td & fs & g & n' & _ & _ & _ & _ & _ & _ & [Htd Hb] & Hg & Hgf & _ & [-> _] & _).
      cbn in Htd. injection Htd as <-. discriminate.
  - exact Hhome.
Qed.

(** ** The names matter

    An inner struct in an element named like its own field. *)
Theorem C17_same_name_refuted : forall fuel, from_str x0 E_same fuel 0 "<Outer><b>x</b></Outer>" = OFuel.
Proof. exact same_hang. Qed.
Print Assumptions C17_same_name_refuted.
(** A text that is the name of a variant with a struct in it. *)
Theorem C17_variant_text_refuted : forall fuel, from_str x0 E_said fuel 0 "<Kind>Item</Kind>" = OFuel.
Proof. exact said_hang. Qed.
Print Assumptions C17_variant_text_refuted.
(** An element of a [String] with an element in it: elements that come later
    are read at the wrong place. *)
Theorem C17_shifted_refuted : forall fuel, from_str x0 E_held fuel 0 "<S><a>t<y/></a><b><c>1</c></b></S>" = OFuel.
Proof. exact held_hang. Qed.
Print Assumptions C17_shifted_refuted.
(** The same types and documents without the element end. *)
Example C17_unshifted_case :
  from_str x0 E_held 40 0 "<S><a>t</a><b><c>1</c></b></S>" = OOk (VRec [VStr "t"; VRec [VStr "1"]]).
Proof. vm_compute. reflexivity. Qed.
(** A flattened struct with an element named like the outer struct. *)
Theorem C17_flattened_refuted : forall fuel, from_str x0 E_left fuel 0 "<Doc>x</Doc>" = OFuel.
Proof. exact left_hang. Qed.
Print Assumptions C17_flattened_refuted.
