(** * C68: the options of `#[yaserde(..)]`.

    Vocabulary: SpecOptions.v, SpecMacro.v. *)
From Verif Require Import Str Num Xml XmlText Reader Schema Macro Options SpecMacro SpecOptions OptionsProofs.
From Coq Require Import Permutation.
Open Scope list_scope.

(** If code is generated, every option that is written is in force. *)
Definition C68_full : Prop :=
  forall ls y, yattr_from (map yaserde_attr ls) = MOk y ->
    forall l k v, In l ls -> In (k, v) l -> says k v y.

(** The values `"b"` and `true`. *)
Definition word (s : string) : otok := OTok (Er "expected a bool") (Ok s) (Er "expected a map") (Ok tt).
Definition yes : otok := OTok (Ok true) (Er "expected a string") (Er "expected a map") (Ok tt).

(** `#[yaserde(renamed = "b")]` is ignored. *)
Theorem C68_refuted : ~ C68_full.
Proof.
  intros H. specialize (H [[("renamed"%string, word "b")]] ya0 eq_refl _ _ _ (or_introl eq_refl) (or_introl eq_refl)).
  inversion H.
Qed.
Print Assumptions C68_refuted.

(** `#[yaserde(rename = "b")] #[yaserde(attribute = true)]` is an element. *)
Theorem C68_second_refuted : ~ C68_full.
Proof.
  intros H.
  specialize (H [[("rename"%string, word "b")]; [("attribute"%string, yes)]]
    (YAttr false None None false [] None (Some "b"%string) None false None false false) eq_refl _ _ _
    (or_intror (or_introl eq_refl)) (or_introl eq_refl)).
  inversion H; subst. discriminate.
Qed.
Print Assumptions C68_second_refuted.

(** Missing for the full claim: names that are no options, and a second
    `#[yaserde(..)]`. *)
Theorem C68_written_partial : forall pre l post y, Forall foreign pre ->
  (yattr_from (pre ++ yaserde_attr l :: post) = MOk y <-> as_written l y).
Proof. exact first_attribute. Qed.
Print Assumptions C68_written_partial.

(** Their order does not matter. *)
Theorem C68_order_partial : forall l l' y,
  Permutation l l' -> read_options l = Ok y -> read_options l' = Ok y.
Proof. exact options_any_order. Qed.
Print Assumptions C68_order_partial.

(** `#[doc = ".."] #[yaserde(prefix = "q", namespaces = {"q" = "v", "b" = "u", "q" = "w"}, attribute = true)]`. *)
Definition dict (l : list (string * string)) : otok :=
  OTok (Er "expected a bool") (Er "expected a string") (Ok l) (Ok tt).
Definition ns_options : list (string * otok) :=
  [("prefix", word "q"); ("namespaces", dict [("q", "v"); ("b", "u"); ("q", "w")]); ("attribute", yes)]%string.
Example C68_case :
  Forall foreign [RAttr "doc" MetaNameValue] /\
  yattr_from ([RAttr "doc" MetaNameValue] ++ yaserde_attr ns_options :: []) =
    MOk (YAttr true None None false [("b", "u"); ("q", "w")]%string (Some "q"%string) None None false None false false) /\
  Permutation ns_options (rev ns_options) /\
  yattr_from [yaserde_attr [("text"%string, yes); ("text"%string, yes)]] =
    MPanic "YaSerDe derive error: duplicate field `text`" /\
  yattr_from [yaserde_attr [("text"%string, word "yes")]] = MPanic "YaSerDe derive error: expected a bool".
Proof.
  split; [repeat constructor; discriminate|]. split; [reflexivity|]. split; [apply Permutation_rev|]. split; reflexivity.
Qed.
