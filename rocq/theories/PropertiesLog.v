(** * C78: values written one after the other into one text.

    Vocabulary: SpecLog.v ([log]) and SpecTurn.v ([read_in_turn]). *)
From Verif Require Import Str Num Xml XmlText Reader Schema De Ser Conform SpecReader SpecTree SpecOut SpecRound SpecXml SpecWritten SpecTurn SpecLog
  RoundCheck OutCheck LogProofs DeclProofs TextProofs PropertiesXml PropertiesRound PropertiesTurn.
Open Scope list_scope.

(** ** In full
    Values that come back from their own texts come back from the one text
    into which these have been appended. *)
Definition C78_full : Prop :=
  forall x E fuel l s, log x E (fun _ => comes_back x E fuel) l s ->
  exists N, forall fl, N <= fl ->
  fst (run (read_in_turn x E fuel fl (map fst l)) (d_init (parse_text s))) = OOk (map snd l).

(** By default every text begins with an XML declaration, which may stand only
    at the beginning of a document. *)
Definition E78 : env :=
  [struct_ "P" ya0 [fldA "k" (a_attr ya0) tstr; fld "x" (tint I32)];
   enum_ "C" ya0 [Variant "Red" ya0 VbUnit; Variant "Blue" ya0 VbUnit] (VVar 0 [])].
Definition v78 (k : string) (n : Z) : value := VRec [VStr k; VInt n].
Theorem C78_declaration_refuted : ~ C78_full.
Proof.
  intros H.
  assert (Hl : exists s, log x0 E78 (fun _ => comes_back x0 E78 fuel) [(0, v78 "a" 1); (0, v78 "b" 2)] s /\
    (forall fl, 30 <= fl -> fst (run (read_in_turn x0 E78 fuel fl [0; 0]) (d_init (parse_text s))) <> OOk [v78 "a" 1; v78 "b" 2])).
  { exists (decl +++ "<P k=""a""><x>1</x></P>" +++ decl +++ "<P k=""b""><x>2</x></P>"). split.
    - refine (log_more _ _ _ config0 0 (v78 "a" 1) (decl +++ "<P k=""a""><x>1</x></P>") "" [(0, v78 "b" 2)] (decl +++ "<P k=""b""><x>2</x></P>" +++ "" +++ "") _ _ mi_none
        (log_more _ _ _ config0 0 (v78 "b" 2) (decl +++ "<P k=""b""><x>2</x></P>") "" [] "" _ _ mi_none (log_none _ _ _)));
        vm_compute; reflexivity.
    - intros fl Hfl. replace fl with (30 + (fl - 30)) by lia. generalize (fl - 30). intros k. vm_compute. discriminate. }
  destruct Hl as (s & Hl & Hn). destruct (H _ _ _ _ _ Hl) as [N HN]. specialize (HN (N + 30) ltac:(lia)).
  exact (Hn (N + 30) ltac:(lia) HN).
Qed.
Print Assumptions C78_declaration_refuted.

(** ** What holds
    Configurations without declaration.  Missing for the full claim: texts with
    declarations, types with [flatten] as roots (they may read on, C77),
    indentation that is not white space, types that write improper, unbound or
    repeated names, control characters and carriage returns in texts, "]]>" in
    CDATA sections. *)
Theorem C78_log_partial :
  forall x E fuel l s, writable_types E ->
  (forall p, In p l -> own_type E (fst p) /\ tame x E p) ->
  log x E (fun c id v s => log_config c /\ comes_back x E fuel id v s) l s ->
  exists N, forall fl, N <= fl ->
  fst (run (read_in_turn x E fuel fl (map fst l)) (d_init (parse_text s))) = OOk (map snd l).
Proof. exact log_read. Qed.
Print Assumptions C78_log_partial.

(** With the round trip (C28): nothing is asked of the texts. *)
Theorem C78_round_partial :
  forall x E l s, supported E -> writable_types E ->
  (forall p, In p l -> rootable E (fst p) /\ Survives x E false (fst p) (snd p) /\ own_type E (fst p) /\ tame x E p) ->
  log x E (fun c _ _ _ => log_config c) l s ->
  exists N, forall fuel, N <= fuel -> exists M, forall fl, M <= fl ->
  fst (run (read_in_turn x E fuel fl (map fst l)) (d_init (parse_text s))) = OOk (map snd l).
Proof. exact log_round. Qed.
Print Assumptions C78_round_partial.

(** A struct, an indented struct and a unit variant; a line end and a comment
    between. *)
Definition l78 : list (nat * value) := [(0, v78 "a&b" 1); (0, v78 "" (-2)); (1, VVar 1 [])].
Definition plain78 : config := Config false false None.
Definition wide78 : config := Config true false (Some " ").
Definition text78 : string :=
"<P k=""a&amp;b""><x>1</x></P>
<P k="""">
 <x>-2</x>
</P><!-- n --><C>Blue</C>".
Example C78_case :
  supported E78 /\ writable_types E78 /\
  (forall p, In p l78 -> rootable E78 (fst p) /\ Survives x0 E78 false (fst p) (snd p) /\ own_type E78 (fst p) /\ tame x0 E78 p) /\
  log x0 E78 (fun c id v s => log_config c /\ comes_back x0 E78 fuel id v s) l78 text78 /\
  fst (run (read_in_turn x0 E78 fuel 40 (map fst l78)) (d_init (parse_text text78))) = OOk (map snd l78).
Proof.
  assert (Hp : log_config plain78) by (split; [reflexivity|intros i Hi; discriminate Hi]).
  assert (Hw : log_config wide78) by (split; [reflexivity|intros i Hi; injection Hi as <-; unfold indentation, every; each; left; reflexivity]).
  split; [supp|]. split; [wtypes|]. split; [|split; [|vm_compute; reflexivity]].
  - intros p [<-|[<-|[<-|[]]]]; (split; [root|]; split; [cbn [fst snd]; surv|]; split; [eexists; split; reflexivity|];
      intros l Hl; vm_compute in Hl; injection Hl as <-; evs).
  - refine (log_more _ _ _ plain78 0 (v78 "a&b" 1) "<P k=""a&amp;b""><x>1</x></P>" (String "010" "") _ _ _ _ _
      (log_more _ _ _ wide78 0 (v78 "" (-2)) ("<P k="""">" +++ String "010" " <x>-2</x>" +++ String "010" "</P>") "<!-- n -->" _ _ _ _ _
      (log_more _ _ _ plain78 1 (VVar 1 []) "<C>Blue</C>" "" _ _ _ _ _ (log_none _ _ _)))).
    all: try (vm_compute; reflexivity); try (split; [assumption|vm_compute; reflexivity]).
    + apply (mi_blank (String "010" "") ""); [white_space|constructor].
    + apply (mi_comment "<!-- n -->" ""); [|constructor].
      exists " n ". repeat split; [unfold every; each; legal|apply not_inside; [discriminate|reflexivity]].
    + constructor.
Qed.
(** Two texts with declarations: the second value is lost. *)
Example C78_case_declaration :
  fst (run (read_in_turn x0 E78 fuel 40 [1]) (d_init (parse_text (decl +++ "<C>Blue</C>" +++ decl +++ "<C>Red</C>")))) = OOk [VVar 1 []] /\
  ~ exists v, fst (run (read_in_turn x0 E78 fuel 40 [1; 1]) (d_init (parse_text (decl +++ "<C>Blue</C>" +++ decl +++ "<C>Red</C>")))) = OOk v.
Proof. split; [vm_compute; reflexivity|]. intros [v H]. vm_compute in H. discriminate H. Qed.

(** ** Declarations behind elements, in general
    The elements in front of a declaration are read; whatever is done next
    ([K]) finds an error and none of what follows ([r]). *)
Theorem C78_stops :
  forall x E fuel ids ts vs s d r, own_documents x E fuel ids ts vs -> ids <> [] -> several_documents ts s ->
  declaration d -> d <> "" ->
  exists N, forall fl A (K : list value -> prog A), N <= fl ->
  fst (run (bind (read_in_turn x E fuel fl ids) K) (d_init (parse_text (s +++ d +++ r)))) =
  fst (run (K vs) (DState 0 (Stream [] (FErr "Invalid processing instruction: <?xml")) None)).
Proof. exact stops_there. Qed.
Print Assumptions C78_stops.
(** [decl] is what the serializer writes; the texts are those of C77_case_text. *)
Example C78_case_stops :
  declaration decl /\
  fst (run (let* vs := read_in_turn x0 E77 fuel 20 [0; 0] in Next (fun r => Ret (vs, r)))
    (d_init (parse_text ((p77 "0" +++ "<!-- n -->" +++ p77 "1") +++ decl +++ p77 "0")))) =
  OOk ([VRec [VInt 0]; VRec [VInt 1]], Er (A := event) "Invalid processing instruction: <?xml").
Proof.
  split; [|vm_compute; reflexivity]. right.
  exists " version=""1.0""", " encoding=""utf-8""", "", "". split; [|split; [right|split; [left; reflexivity|split; [constructor|reflexivity]]]].
  - exists " ", "", "", """"%char, "1.0". repeat split; [white_space|discriminate|constructor|constructor|left; reflexivity|left; reflexivity].
  - exists " ", "", "", """"%char, "utf-8". repeat split; [white_space|discriminate|constructor|constructor|left; reflexivity|right; left; reflexivity].
Qed.
