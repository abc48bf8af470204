# Formal model of media-io/yaserde in Rocq (Coq 8.16.1)

## What is modelled

| Layer | Repo code | Model file |
|---|---|---|
| Rust std: integer/bool `Display`/`FromStr`, trimming, `split_whitespace` | (std) | `Num.v`, `Str.v` |
| xml-rs events, names, namespaces, emitter, parser | (external crate) | `Xml.v`, `XmlText.v` |
| `Deserializer` runtime: `peek`, `next_event`, `skip_element`, `read_inner_value`, `expect_end_element`, `depth` | `yaserde/src/de/mod.rs` | `Reader.v`, `Client.v` (`inner_next`) |
| classification of field types, choice of attribute, panics and visitor names of the derive macros | `yaserde_derive/src/common/*.rs`, `{de,ser}/expand_*.rs`, `primitives.rs` | `Macro.v` |
| reading of the options in `#[yaserde(..)]` | `yaserde_derive/src/common/attribute.rs` (with serde's derived code) | `Options.v` |
| `YaSerdeAttribute`, `YaSerdeField` (labels, prefixes, namespaces, default namespace) | `yaserde_derive/src/common/*.rs`, `ser/label.rs`, `ser/namespace.rs` | `Schema.v` |
| code generated by `#[derive(YaDeserialize)]` for structs and enums | `yaserde_derive/src/de/*.rs` | `De.v` |
| `deserialize_primitives`, `serialize_primitives`, HexBinary/Primitive/Default newtypes | `yaserde/src/primitives.rs`, `yaserde_derive/src/primitives.rs` | `De.v`, `Ser.v`, `Schema.v` |
| `Serializer` runtime, `Config`, `to_string`, `to_string_content`, `serialize_type!` | `yaserde/src/ser/mod.rs`, `yaserde/src/lib.rs` | `Ser.v` |
| code generated by `#[derive(YaSerialize)]` for structs and enums, `serialize_attributes` | `yaserde_derive/src/ser/*.rs` | `Ser.v` |

The derive macro is a compiler: its input is a type definition, its output is
code.  The model is an *interpreter*: a type definition is data (`Schema.v`)
and `De.v` / `Ser.v` give, arm by arm, the behaviour of the code the macro
generates for that definition.  So theorems quantify over type definitions.
`Macro.v` models the step before: from Rust syntax to such data, with the
compile-time panics.

* A deserializer is a *client program* of the `Deserializer` API (a free monad
  over `peek`, `next_event`, `depth`, from which generated code is built).
  Hand-written code may also call the public `inner_next` itself: `Client.v`
  has all client programs, and C01-C06 are stated for them too
  (`PropertiesClient.v`).  In C70 the hand-written deserializers do not call
  `inner_next`.
* Loops take fuel; running out of fuel is a separate outcome (`OFuel`), never a
  normal value.  "Returns" is `exists N, forall fuel >= N, result = ..`,
  "hangs" is `forall fuel, result = OFuel`; results do not depend on the fuel
  once it suffices (`C17_fuel`).
* Panics are a separate outcome (`OPanic`): failing `unwrap`s and the
  underflowing `depth -= 1`.
* The XML parser delivers a finite list of events followed by a final result
  (end of document or error) that repeats forever, as xml-rs does.
* The writer is a list of accepted events plus an arbitrary failure schedule
  (`nat -> bool`, does the n-th write fail?).
* Floats, user-written `Display`/`FromStr`, `default = ".."` and
  `skip_serializing_if` functions are parameters (record `ext`); theorems hold
  for all of them.

`Conform.v` (shortened documents), `Conform2.v` and `Conform3.v` (documents as
they are in the repository) replay the tests of `yaserde/tests` and
`examples/src` on the model: 99 Examples, all with the results the repository expects.  They are
tests of the model, not proofs.  The tests with hand-written trait
implementations (`de_attributes_custom_deserializer`, `de_custom`,
`ser_custom`) are replayed in `PropertiesOwn.v`: there the implementations of
some types are arbitrary programs (`de_with`, `ser_with`; the generated code
in `De.v`/`Ser.v` is a function of the implementations of the other types
anyway).  Not replayed: `de_nested_macro_rules` (checks only that code
compiles).

## What is not modelled

* How `syn`/`serde_tokenstream` read the tokens of a value in `#[yaserde(..)]` (`Options.v`
  models what serde's derived code does with the options); generics (a generic
  type is modelled by its instances: a type parameter is a user type to the
  macros, also if the type given for it is a simple one, see `SpecStd.v`);
  in `De.v`/`Ser.v` the name of a user type is one identifier.
* Whether generated code compiles, apart from C46.  In particular the branches
  of `ser/expand_enum.rs` for `attribute` and `text` in a variant, and for the
  attributes of a flattened payload of a flattened enum (`child_attributes` is
  used after it was moved), give code that rustc rejects; `Ser.v` leaves them
  out.
* Logging.  (`usize`, `isize` and `char` fields: `SpecStd.v`, as types whose
  implementation is not derived.)
* Field types other than `T`, `Option<T>`, `Vec<T>`, `Option<Vec<T>>` with `T`
  simple or user-defined.  `YaDeserialize` can be derived for no others
  (`C45_modelled_partial`), except in struct-like variants.
* Text of error messages that print a `Debug` rendering of an event.

## Simplifications (each also noted at its definition)

* Strings are lists of bytes (UTF-8); `De.v` and `Ser.v` leave out the checks
  that byte buffers are UTF-8, `Checked.v` has them, with std's validation, and C72 shows that they never fail; the parser starts from characters, `Bytes.v` has the way xml-rs takes them from any bytes (C73); every non-ASCII byte is accepted in XML
  names; numeric character references to characters XML does not allow are
  rejected.
* xml-rs: "]]>" in character data is accepted, a document type declaration ends
  at its first '>', entity declarations are not supported, and the details of
  the XML declaration are not checked (an encoding declared there has no effect);
  it is refused behind the first element, as is a document type declaration,
  but a second one in front of that is accepted.  The names of processing instructions are checked for "xml" only.
* `HexBinaryYaSerde` shows negative flags in two's complement, as
  `{:02X}` does.

## Trusted base

* The Coq kernel and `vm_compute`.
* `Print Assumptions` is stated below every property theorem; all of them are
  "Closed under the global context": **no axioms**.  (A listing of the whole
  library shows seven constants of `Coq.ssr.ssrunder`; they come with the
  standard library's `Lia` and no theorem uses them.)
* The transcription of the Rust code into `Reader.v`, `Macro.v`, `Options.v`, `Schema.v`, `De.v`,
  `Ser.v`, and of std and xml-rs into `Num.v`, `Str.v`, `Xml.v`, `XmlText.v`.
  Every definition that stands for code of the repository cites its lines.
* The model of xml-rs in particular.  Its source is not in the repository and
  was not at hand: `Xml.v`, `XmlText.v` and `Bytes.v` follow what is known of
  version 0.8.3 and what the tests of the repository show, and could not be
  compared with the code or with runs of it.  Two mistakes were found late, by
  trying to refute C78 (a second XML declaration was accepted; any "<!...>" was
  taken for a document type declaration, anywhere); there may be more, above
  all in what is refused and in the texts of errors.  C55, C56, C73, C76, C77
  (texts), C78 and C79 depend on it most; properties about events do not.

## How the proofs are organised

* `Spec*.v`: vocabulary of the statements, small and independent of the
  generated code.  In particular
  * `SpecTree.v`, `SpecValue.v`: `decode`, what an element *means* for a type,
    defined on trees, and `Fits`/`Conforms`, the documents for which the
    streaming code is meant to compute it;
  * `SpecText.v`: `reread`, the tree that results from writing and parsing a
    tree, and `Writable`;
  * `SpecEnc.v`: `encode`, the tree a value is written as;
  * `SpecSer.v`, `SpecWithin.v`, `SpecStruct.v`, `SpecRound.v`, `SpecRoundFlat.v`, `SpecOut.v`, `SpecEnum.v`,
    `SpecFlat.v`, `SpecInsert.v`, `SpecComplete.v`, `SpecAlike.v`, `SpecMacro.v`, `SpecSource.v`,
    `SpecStable.v`, `SpecContent.v`, `SpecCause.v`, `SpecCut.v`, `SpecEvolve.v`, `SpecMove.v`, `SpecInline.v`, `SpecRewrite.v`, `SpecSpread.v`, `SpecNames.v`, `SpecDeclared.v`, `SpecTrim.v`, `SpecQuiet.v`, `SpecSpared.v`, `SpecHalt.v`, `SpecOptions.v`, `SpecPrint.v`, `SpecOwn.v`, `SpecStd.v`, `SpecUtf8.v`, `SpecBytes.v`, `SpecFull.v`, `SpecReuse.v`, `SpecClient.v`, `SpecCoherent.v`, `SpecTurn.v`, `SpecLog.v`: the words used by the properties;
  * `SpecXml.v`: the grammar of XML documents and of namespaces, written after the recommendations and
    independent of the parser and the emitter (C55, C56).  `SpecLine.v`: line ends and byte order marks (C55).  `SpecWritten.v`: texts and indentation for C56.
* `TreeProofs.v`/`ValueProofs.v`: the streaming deserializers compute `decode`
  on conforming trees.  `TextProofs.v`: the parser inverts the emitter.
  `EncProofs.v`: the serializers write `encode`.  `IndentProofs.v`: the parser
  on two indentations of the same events, whatever the texts.  `RoundProofs.v`: `decode`
  inverts `encode`.  `RoundFlat*.v`: the same with flattened fields, where several
  types share one element.  `TypedProofs.v`, `SafeProofs.v`, `TermProofs.v`: typing,
  panics and termination for *all* inputs.  `SourceProofs.v`: where values come
  from, for all inputs.  `CleanProofs.v`: the texts the parser can deliver.
  `StableProofs.v`: the values the reader can return survive.  `ContentProofs.v`: the emitted
  text without its outermost tags or its declaration.  `CauseProofs.v`: where errors and
  panics come from, for all inputs.
* `Properties*.v`: the property theorems, each closed by a lemma, with an
  Example of a concrete case meeting the hypotheses, and `Print Assumptions`.
* `RoundCheck.v`, `RoundFlatCheck.v`, `OutCheck.v`, `FitsCheck.v`, `StableCheck.v`: sound deciders for the hypotheses,
  used by the Examples only.

Naming: `Cnn_*` proves property Cnn of `properties.jsonl`; `_partial`: the
statement covers a part of the claim, the comment says which; `_refuted`: the
negation of the full claim, proved by a concrete document or value.

## Properties that are false of the code

The full claims below are refuted by evaluated witnesses; the `_partial`
theorems give a class for which the claim holds.

| | Behaviour of the code |
|---|---|
| C01, C02, C04 | `inner_next` is public: called by hand-written code it passes a peeked event over and does not count depth |
| C05 | a closure that reads the start tag of an inner element of the same name lets `read_inner_value` take the inner end tag |
| C10, C14 | elements inside of the content of a simple field shift the depth counter; a nested text ends up in the struct's text field, attributes of a descendant in its attribute fields |
| C11 | a flattened enum takes the last of the elements that belong to no field; an element named like a text field supplies that field too |
| C12, C13 | the content of an element of simple type is searched for the struct's elements, and after it the next start tag is taken for the struct's own |
| C15 | a flattened enum sees the root element too |
| C16 | with a flattened field, an element of simple type that does not parse is an error |
| C17 | a struct whose root element is named like one of its simple fields is read for ever; so is an inner struct in such an element, a struct payload whose variant's name is the text of the enum, a struct after a simple element that holds an element, and a flattened struct with an element named like the outer one |
| C18 | a simple enum payload that does not parse panics |
| C19 | a struct element named like one of its own simple fields is left early |
| C22 | items of a type with `flatten` on the type itself are not separated |
| C23 | `skip_serializing` is ignored on attributes and text fields |
| C24 | write errors of `Vec<i32>`, `Option<bool>`, .. payloads are dropped |
| C25 | a `skip_serializing_if` method sees the whole struct |
| C26, C31 | a field without prefix below a default namespace is written into that namespace and not recognised |
| C27 | a recursive struct holding elements named like its own field |
| C28 | empty strings, outer white space, `Some("")`, tabs in attributes; attributes of an optional flattened field, an absent one without required fields, two flattened fields that read the same element |
| C29 | `None` and empty `Vec` payloads, struct-like and prefixed variants and simple payloads of tagged enums are read as the default; struct payloads of tagged enums are an error |
| C30 | an element whose own name is that of a variant |
| C32 | markup characters in attributes of user-defined type are escaped twice |
| C33 | bit flags are written in hexadecimal and read in decimal |
| C34 | the rest of a struct is lost after a unit variant, an empty or an invalid field |
| C35, C36 | control characters; "]]>" inside of CDATA |
| C37 | names are written unchecked: one that contains `<![CDATA[` makes the indentation part of a text |
| C38 | attributes are matched by local name only |
| C39 | only the last chunk of interrupted text is kept |
| C40 | `Vec` attributes are never written |
| C41 | a unit variant or a newtype at the root is returned before its element is closed |
| C42 | of two attributes with the same local name the last one is taken; what a flattened field is read from loses a declaration that an outer element has too, although an element in between changed the prefix |
| C43 | follows from C28 and C40: what is not written is not told apart |
| C44 | only the last segment of a path counts: `my::String` is taken for `String`, an alias for a user type |
| C45 | struct-like variants are not looked at by the deserializer; the serializer ignores options in them |
| C46 | `a.b` and `a_b`, or an attribute `x` and an element `attribute:x`, share a visitor |
| C48 | tabs in attributes, "]]>" in CDATA fields, lists in attributes, bit flags, attributes of payloads |
| C49 | the element of a flattened payload is dropped too; namespaces declared by the dropped tag are declared again inside |
| C52 | a newtype at the root whose text did not arrive is read as if it were empty |
| C53 | the namespace of a struct is checked at the root only |
| C54 | a flattened `Option` is `None` where its type cannot be read, and `Some` once the type is looser |
| C55 | a document type declaration with '>' in a literal is taken to end there (xml-rs 0.8.3), and the document is refused; line ends with carriage returns are not translated; a byte order mark is refused |
| C56 | control characters in a text are written as they are, which no XML document may contain; names that are no names (rename), prefixes without namespace and attributes of the same name are written without complaint |
| C57 | of two fields with the same name the first one takes everything; whether a flattened `Option` is `None` or a panic depends on which field comes first |
| C58 | the default namespace of a flattened struct becomes that of the whole element it is written in |
| C59 | a flattened struct joins the texts that a struct would overwrite; its type checks the namespace of the element around it |
| C60 | the value of an attribute is read from an element named after the Rust identifier of its type, which may be the name of a variant |
| C63 | an element inside of the element of a simple field is taken for one of the struct's own |
| C65 | the new program finds elements inside of the element of a simple field that the old one skips; a flattened `Option` is `None` when a new field of its type is missing, and `Some` without that field |
| C66 | an `Option` that is the text of its element is written as the empty text when it is `None`; a default that is not equal to itself (a NaN) is written |
| C68 | a name that is no option (`renamed = "b"`) is ignored, and so is a second `#[yaserde(..)]` |
| C70 | as C63, with hand-written implementations beside |
| C71 | `usize`, `isize` and `char` fields, and simple types given for a type parameter, are written as bare texts without their elements, and their write errors are dropped; such a value alone is no document |
| C74 | a flattened enum with a list of numbers in a struct-like variant reports success to a writer that took nothing |
| C75 | the name of the last field of user type stays in the serializer: a second value serialized with it gets that name |
| C77 | a flattened struct with a field named like the element misses its end and takes the following elements, too |
| C78 | with the default configuration every text begins with an XML declaration, which xml-rs refuses behind the first element |

## Changes to the property list

`properties.jsonl` was written before the proofs.  When the struct properties
were proved (commit c398a51), the quantifiers of C10, C12, C13 and C16 were
narrowed from all documents to conforming ones (C13 also to structs without
`flatten`), and the four were then listed as proved.  That was wrong: the claim
had been fitted to the proof.  The original quantifiers are restored and the
four are `partial`.  C11, C15, C22 and C25 had been listed as proved although
their theorems restricted the type definitions or the states.  C11, C15 and C22
are `partial`, with refutations of the full claims; C25 has since been proved
for every struct, variant and state.  `Conforms` (`SpecTree.v`, `SpecValue.v`) asks for more than "elements of
simple type hold only text"; the comment above `Fits` lists its conditions.
C41 and later were added as the model grew.

## Tests of the theorems

`tools/mutate.py` edits one definition of the model in a scratch copy, builds
it, replaces every failing proof by an axiom (in the copy) and lists the
property theorems that failed or rest on such an axiom.  `seeded/LOG.jsonl` has
one line per attempt.  `theories/Battery.v` has concrete instances of the
properties; `tools/battery.py` runs them against every wrong model of the log
and records in `violated` the properties whose instances become false.
