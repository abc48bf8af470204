{"id": "C01", "title": "Peeking never changes what is read", "statement": "For any code using a Deserializer, adding a peek() call at any point changes neither the events later returned by next_event(), nor depth(), nor any error, nor the final result.", "quantifier": "all Deserializer client programs, all event sources, all insertion points", "why_tests_cant": "The claim is about every interleaving of peek and next_event over every input, not about one call sequence.", "anchors": ["yaserde/src/de/mod.rs: Deserializer::peek, Deserializer::next_event, Deserializer::inner_next"]}
{"id": "C02", "title": "depth() is the number of open elements", "statement": "After any history of calls, depth() equals the number of start tags minus the number of end tags handed out by next_event(); on the events of any well-nested document it never goes below zero (so the usize subtraction never panics) and is zero once all elements are closed.", "quantifier": "all histories of Deserializer calls, all well-nested event sources", "why_tests_cant": "Needs an invariant over unboundedly long call histories and nesting depths.", "anchors": ["yaserde/src/de/mod.rs: Deserializer::next_event, Deserializer::depth"]}
{"id": "C03", "title": "XML declaration, processing instructions and comments are invisible", "statement": "Deserializing any type (derived or hand written against the Deserializer API) from an event source gives the same result as from the source with all StartDocument, ProcessingInstruction and Comment events removed.", "quantifier": "all client programs, all event sources, any placement of such events", "why_tests_cant": "Placement of noise events is unbounded.", "anchors": ["yaserde/src/de/mod.rs: Deserializer::inner_next"]}
{"id": "C04", "title": "skip_element consumes exactly one element", "statement": "Called right after the start tag of an element was read, skip_element passes every remaining event of that element (to its matching end tag, inclusive) to the callback in order, stops right after it, and restores depth() to the value before the start tag; if the source fails first, the error is returned.", "quantifier": "all element contents (any nesting depth and size), all following input", "why_tests_cant": "Nesting is unbounded; a same-named descendant must not end the skip early.", "anchors": ["yaserde/src/de/mod.rs: Deserializer::skip_element"]}
{"id": "C05", "title": "read_inner_value accepts only a properly closed element", "statement": "read_inner_value returns Ok only if a start tag was read, the closure succeeded and the very next event is the end tag with the same full name; then the reader stands right after that end tag at the original depth.", "quantifier": "all closures, all reader states", "why_tests_cant": "Quantifies over every closure and every reader state.", "anchors": ["yaserde/src/de/mod.rs: Deserializer::read_inner_value, Deserializer::expect_end_element"]}
{"id": "C06", "title": "Input after the point where deserialization stops is irrelevant", "statement": "If a deserialization finishes having looked only at a prefix of the events, then any other continuation of the input (further elements, garbage, errors) gives exactly the same result.", "quantifier": "all client programs, all prefixes and all continuations", "why_tests_cant": "Ranges over all continuations.", "anchors": ["yaserde/src/de/mod.rs: Deserializer::next_event", "yaserde_derive/src/de/expand_struct.rs: parse"]}
{"id": "C07", "title": "Integer text round trip", "statement": "For each of i8,u8,i16,u16,i32,u32,i64,u64, parsing the Display text of any value gives back that value.", "quantifier": "all values of all eight integer types", "why_tests_cant": "2^64 values cannot be enumerated.", "anchors": ["yaserde_derive/src/common/field.rs: Field (FieldI8..FieldU64)", "yaserde_derive/src/ser/element.rs: enclose_formatted_characters_for_value", "yaserde_derive/src/de/expand_struct.rs: simple_type_visitor"]}
{"id": "C08", "title": "Integer fields accept exactly in-range decimal numerals", "statement": "A field of an integer type accepts a text exactly when it is an optional sign ('+' always, '-' only for signed types) followed by one or more decimal digits denoting a value in the range of the type, and then yields that value; everything else is rejected with an error and never wraps.", "quantifier": "all strings, all eight integer types", "why_tests_cant": "All strings.", "anchors": ["yaserde_derive/src/de/expand_struct.rs: simple_type_visitor (from_str)"]}
{"id": "C09", "title": "Bool lexical forms", "statement": "A bool struct field accepts exactly the texts true, false, 1 and 0 (with their xs:boolean meaning); to_string writes true or false.", "quantifier": "all strings", "why_tests_cant": "All strings.", "anchors": ["yaserde_derive/src/de/expand_struct.rs: map_if_bool"]}
{"id": "C10", "title": "Missing data: required, Option, Vec, default", "statement": "When no child element or attribute supplies a field: an Option field becomes None, a Vec field becomes empty, a field with default=f gets f(), and any other field makes deserialization fail with '<field> is a required field of <Type>'.", "quantifier": "all struct definitions, all documents", "why_tests_cant": "Ranges over all struct definitions and all other content of the document.", "anchors": ["yaserde_derive/src/de/expand_struct.rs: struct_builder", "yaserde_derive/src/de/build_default_value.rs"]}
{"id": "C11", "title": "Child element order does not matter", "statement": "Permuting the child elements of a struct element without changing the relative order of children with the same name gives the same deserialized value.", "quantifier": "all struct definitions, all conforming documents, all such permutations", "why_tests_cant": "Factorially many orders, unbounded numbers of children.", "anchors": ["yaserde_derive/src/de/expand_struct.rs: parse (call_visitors)"]}
{"id": "C12", "title": "Repeated elements", "statement": "For a Vec field the values of all matching child elements are collected in document order; for a scalar field the last matching (parseable) child wins.", "quantifier": "all struct definitions, any number of repetitions", "why_tests_cant": "Unbounded repetition counts.", "anchors": ["yaserde_derive/src/de/expand_struct.rs: visit_sub, visit_simple actions"]}
{"id": "C13", "title": "Unknown content is ignored", "statement": "Adding a child element that matches no field (with any content, including descendants named like fields), or an attribute that matches no attribute field, does not change the deserialized value.", "quantifier": "all struct definitions, documents, unknown subtrees and insertion points", "why_tests_cant": "Unknown subtrees are arbitrary.", "anchors": ["yaserde_derive/src/de/expand_struct.rs: parse (skip_element arm)"]}
{"id": "C14", "title": "Attributes come only from the element's own start tag", "statement": "An attribute field is read only from the start tag of the struct's own element, never from a descendant or sibling.", "quantifier": "all struct definitions, all documents", "why_tests_cant": "Ranges over all documents, including mixed content.", "anchors": ["yaserde_derive/src/de/expand_struct.rs: attributes_loading, depth counter"]}
{"id": "C15", "title": "Root element: name ignored, namespace checked", "statement": "At top level the local name of the root element is irrelevant unless it collides with a field, while a namespaced root element is accepted only if its namespace is the one bound to the struct's prefix; otherwise the error is 'bad namespace for <name>, found <ns>'.", "quantifier": "all struct definitions, all root names and namespaces", "why_tests_cant": "All names and namespaces.", "anchors": ["yaserde_derive/src/common/attribute.rs: get_namespace_matching", "yaserde_derive/src/de/expand_struct.rs: namespaces_matching"]}
{"id": "C16", "title": "Invalid simple content", "statement": "An unparseable or empty text in a child element of simple type is treated as if the element were absent, while an unparseable attribute value aborts deserialization with the parse error.", "quantifier": "all struct definitions, all texts", "why_tests_cant": "All texts and positions.", "anchors": ["yaserde_derive/src/de/expand_struct.rs: build_call_visitor, attributes_loading"]}
{"id": "C17", "title": "Deserialization terminates", "statement": "from_str returns (Ok or Err) for every input document.", "quantifier": "all type definitions, all documents", "why_tests_cant": "Non-termination on some input is a liveness property over all inputs.", "anchors": ["yaserde_derive/src/de/expand_struct.rs: parse (loop, EndDocument arm)", "yaserde_derive/src/de/expand_enum.rs: parse"]}
{"id": "C18", "title": "Deserialization does not panic", "statement": "from_str never panics, whatever the input.", "quantifier": "all type definitions, all documents", "why_tests_cant": "All inputs.", "anchors": ["yaserde_derive/src/de/expand_enum.rs: simple_type_visitor (unwrap)", "yaserde/src/de/mod.rs: next_event (depth -= 1)", "yaserde_derive/src/de/expand_struct.rs: build_code_for_unused_xml_events (unwrap)"]}
{"id": "C19", "title": "Derived deserializers consume exactly their element", "statement": "When a derived struct deserializer is called at the start tag of an element of a well-formed document and returns Ok, the next event is the end tag of that same element and depth() is one more than at the call; surrounding content is untouched.", "quantifier": "all struct definitions, all conforming elements, all surrounding documents", "why_tests_cant": "Unbounded nesting; composition of arbitrary types relies on it.", "anchors": ["yaserde_derive/src/de/expand_struct.rs: parse, visit_struct"]}
{"id": "C20", "title": "Returned values are well typed", "statement": "Every value returned by a derived deserializer has the declared shape and every integer in it is within the range of its declared type.", "quantifier": "all definitions, all inputs, even malformed", "why_tests_cant": "All inputs.", "anchors": ["yaserde_derive/src/de/expand_struct.rs: parse", "yaserde_derive/src/de/expand_enum.rs: parse"]}
{"id": "C21", "title": "Serialized output is well nested", "statement": "The events written by serialize of any value are properly nested; a non-flattened type produces exactly one root element; the writer's 'no open element' error cannot occur.", "quantifier": "all type definitions, all values", "why_tests_cant": "All values, arbitrary nesting.", "anchors": ["yaserde_derive/src/ser/implement_serializer.rs: implement_serializer", "yaserde_derive/src/ser/expand_struct.rs: serialize", "yaserde_derive/src/ser/expand_enum.rs: serialize"]}
{"id": "C22", "title": "One element per Vec item, none for None", "statement": "A Vec field writes exactly one element per item in order, an Option field writes one element for Some and nothing for None.", "quantifier": "all type definitions, all values", "why_tests_cant": "Unbounded lengths.", "anchors": ["yaserde_derive/src/ser/expand_struct.rs: struct_inspector"]}
{"id": "C23", "title": "skip_serializing, skip_serializing_if and default suppress a field", "statement": "A field marked skip_serializing, or whose skip_serializing_if predicate holds, or whose value equals its default, contributes nothing to the output.", "quantifier": "all type definitions, all values, all predicates", "why_tests_cant": "Predicates and values are arbitrary.", "anchors": ["yaserde_derive/src/ser/element.rs: condition_generator", "yaserde_derive/src/common/field.rs: ser_wrap_default_attribute", "doc/skip_serializing.md"]}
{"id": "C24", "title": "Write errors are reported", "statement": "If serialize returns Ok then every event it issued was accepted by the writer (no write error is swallowed); if a write fails, serialize stops and returns an error.", "quantifier": "all type definitions, all values, all failure points", "why_tests_cant": "Every possible failure point.", "anchors": ["yaserde/src/lib.rs: serialize_type!", "yaserde_derive/src/ser/implement_serializer.rs: implement_serializer", "yaserde/src/primitives.rs: serialize_primitives"]}
{"id": "C25", "title": "Serializing a field does not depend on what was serialized before", "statement": "The events written for a field are a function of the field's value and definition only, not of the serializer's leftover skip/start-name flags from earlier fields.", "quantifier": "all type definitions, all values, all prior serializer states", "why_tests_cant": "All histories.", "anchors": ["yaserde/src/ser/mod.rs: Serializer::set_skip_start_end, set_start_event_name", "yaserde_derive/src/ser/expand_struct.rs: struct_inspector", "yaserde_derive/src/ser/expand_enum.rs: inner_enum_inspector"]}
{"id": "C26", "title": "The reader recognises the names the writer uses", "statement": "The qualified name written for a struct field, resolved with the namespaces declared on the struct's element, is exactly the (namespace, local name) pair the reader matches for that field.", "quantifier": "all struct attribute configurations and fields", "why_tests_cant": "All combinations of prefix/default_namespace/namespaces/rename.", "anchors": ["yaserde_derive/src/common/field.rs: renamed_label, prefix_namespace", "yaserde_derive/src/common/attribute.rs: prefix_namespace", "yaserde_derive/src/ser/namespace.rs"]}
{"id": "C27", "title": "Struct round trip (event level)", "statement": "Reading the XML events written for a struct value gives back the value.", "quantifier": "all struct definitions in the supported class (attributes, element, text, Option, Vec, nested, recursive), all values with non-empty trimmed text", "why_tests_cant": "All definitions and all values.", "anchors": ["yaserde_derive/src/ser/expand_struct.rs: serialize", "yaserde_derive/src/de/expand_struct.rs: parse"]}
{"id": "C28", "title": "Round trip through text", "statement": "from_str(to_string(v)) = Ok(v).", "quantifier": "all struct definitions in the supported class, all values", "why_tests_cant": "All definitions and values, all characters.", "anchors": ["yaserde/src/ser/mod.rs: to_string", "yaserde/src/de/mod.rs: from_str"]}
{"id": "C29", "title": "Enum round trip", "statement": "A struct field of enum type (unit variants, and one-payload variants over String, integers, structs, Option and Vec) survives serialization followed by deserialization.", "quantifier": "all enum definitions, all values", "why_tests_cant": "All definitions and values.", "anchors": ["yaserde_derive/src/ser/expand_enum.rs: serialize", "yaserde_derive/src/de/expand_enum.rs: parse"]}
{"id": "C30", "title": "Unknown enum variant yields the default", "statement": "If an enum element contains neither a known variant element nor a known variant text the result is Ok(Default::default()).", "quantifier": "all enum definitions, all documents", "why_tests_cant": "All documents.", "anchors": ["yaserde_derive/src/de/expand_enum.rs: parse"]}
{"id": "C31", "title": "Tagged enum round trip", "statement": "A unit-variant enum with tag=t is written as an element with attribute t=<variant> and is read back as the same variant.", "quantifier": "all tagged unit enums, all variants", "why_tests_cant": "All definitions.", "anchors": ["yaserde_derive/src/ser/expand_enum.rs: add_tag", "yaserde_derive/src/de/expand_enum.rs: element_name"]}
{"id": "C32", "title": "Attributes of user-defined type", "statement": "An attribute whose type is a user-defined unit enum or primitive newtype is written as that type's text and read back to the same value.", "quantifier": "all such types, all values", "why_tests_cant": "All values, including texts with markup characters.", "anchors": ["yaserde_derive/src/ser/expand_struct.rs: FieldStruct attribute", "yaserde_derive/src/de/expand_struct.rs: struct_visitor", "yaserde/src/ser/mod.rs: to_string_content"]}
{"id": "C33", "title": "Primitive newtypes round trip", "statement": "Types deriving PrimitiveYaSerde, DefaultYaSerde or HexBinaryYaSerde survive serialization followed by deserialization.", "quantifier": "all such types, all values", "why_tests_cant": "All values.", "anchors": ["yaserde/src/primitives.rs: serialize_primitives, deserialize_primitives", "yaserde_derive/src/primitives.rs: hexbinary_serde, primitive_serde, primitive_yaserde"]}
{"id": "C34", "title": "flatten collects exactly the unmatched content", "statement": "A flattened field is deserialized from the struct element with the children matched by the struct's own fields removed; its children and attributes are merged into the parent on output.", "quantifier": "all struct definitions with flatten fields, all conforming documents", "why_tests_cant": "All documents.", "anchors": ["yaserde_derive/src/de/expand_struct.rs: build_code_for_unused_xml_events, call_flatten_visitors", "yaserde_derive/src/ser/implement_serializer.rs: serialize_attributes"]}
{"id": "C35", "title": "String content never becomes markup", "statement": "Whatever characters a String field contains, the written text parses back to a single text/attribute value; it can not create or close elements or attributes.", "quantifier": "all strings", "why_tests_cant": "All strings.", "anchors": ["yaserde_derive/src/ser/element.rs: enclose_xml_event", "yaserde_derive/src/ser/expand_struct.rs: attr"]}
{"id": "C36", "title": "CDATA fields round trip", "statement": "A cdata field's content is read back unchanged.", "quantifier": "all strings", "why_tests_cant": "All strings.", "anchors": ["yaserde_derive/src/ser/expand_struct.rs: is_cdata", "yaserde/src/ser/mod.rs: new_from_writer (cdata_to_characters(false))"]}
{"id": "C37", "title": "Indentation does not change the data", "statement": "Deserializing the output of to_string_with_config with perform_indent gives the same result as deserializing the output of to_string.", "quantifier": "all struct definitions, values and indentation strings made of white space", "why_tests_cant": "All values and configurations.", "anchors": ["yaserde/src/ser/mod.rs: Config, new_from_writer"]}
{"id": "C38", "title": "Attribute lookup respects namespaces", "statement": "An attribute field without prefix is not affected by an attribute of the same local name in another namespace.", "quantifier": "all struct definitions, all attribute lists", "why_tests_cant": "All attribute lists.", "anchors": ["yaserde_derive/src/de/expand_struct.rs: attributes_loading"]}
{"id": "C39", "title": "Text field content", "statement": "A text field receives the text of its element.", "quantifier": "all struct definitions with a text field, all documents", "why_tests_cant": "All documents, including mixed content.", "anchors": ["yaserde_derive/src/de/expand_struct.rs: set_text"]}
{"id": "C40", "title": "Attribute lists", "statement": "An attribute field of type Vec<T> is read as the white-space separated list of its items and every attribute field that is read is also written.", "quantifier": "all Vec attribute fields, all values", "why_tests_cant": "All values.", "anchors": ["yaserde_derive/src/de/expand_struct.rs: visit_vec", "yaserde_derive/src/ser/expand_struct.rs: FieldVec attribute"]}
{"id": "C41", "title": "Unfinished documents are rejected", "statement": "from_str never accepts a text that ends (or becomes malformed) before its root element is closed.", "quantifier": "all type definitions, all texts", "why_tests_cant": "Every truncation of every document.", "anchors": ["yaserde_derive/src/de/expand_struct.rs: parse (loop)", "yaserde_derive/src/de/expand_enum.rs: parse (break)", "yaserde/src/primitives.rs: deserialize_primitives"]}
{"id": "C42", "title": "Prefixes, namespace declarations and attribute order do not matter", "statement": "Two documents whose elements have the same local names, namespaces, texts and attributes are read alike, whatever prefixes they use, wherever the namespaces are declared and in whatever order the attributes of an element stand.", "quantifier": "all type definitions, all pairs of such documents, malformed ones included", "why_tests_cant": "All pairs of documents.", "anchors": ["yaserde_derive/src/de/expand_struct.rs: parse, attributes_loading", "yaserde_derive/src/de/expand_enum.rs: parse", "yaserde/src/de/mod.rs: expect_end_element"]}
{"id": "C43", "title": "Different values are written as different texts", "statement": "If to_string gives the same text for two values of a type, the values are equal.", "quantifier": "all type definitions, all pairs of values", "why_tests_cant": "All pairs of values.", "anchors": ["yaserde_derive/src/ser/expand_struct.rs: struct_inspector", "yaserde/src/ser/mod.rs: to_string"]}
{"id": "C44", "title": "A field is handled as the type it has", "statement": "Whenever a derive macro generates code, a field of type String, bool, an integer or float type, Option<T> or Vec<T> is handled as such, and a field of any other type through that type's own implementation.", "quantifier": "all field types, all name resolutions", "why_tests_cant": "Every type syntax, in every module.", "anchors": ["yaserde_derive/src/common/field.rs: From<&syn::Path>, From<&syn::Field>, From<&syn::PathSegment>"]}
{"id": "C45", "title": "Unsupported definitions are compile-time errors", "statement": "If both traits can be derived for a definition, every field of it, those of variants included, has a type that is read and written: a simple or user type, or an Option or Vec of one. Definitions that keep to the documented forms are accepted.", "quantifier": "all struct, enum and union definitions with all attributes", "why_tests_cant": "Every definition, no bound on fields or nesting.", "anchors": ["yaserde_derive/src/de/expand_struct.rs: parse", "yaserde_derive/src/de/expand_enum.rs: parse_variant", "yaserde_derive/src/ser/expand_struct.rs: serialize", "yaserde_derive/src/ser/expand_enum.rs: serialize", "yaserde_derive/src/common/attribute.rs: From<&Vec<Attribute>>"]}
{"id": "C46", "title": "Generated visitors have different names", "statement": "Two fields of a struct that differ in XML (attribute or element, prefix, name) never get visitors of the same name, so the generated code compiles.", "quantifier": "all pairs of fields", "why_tests_cant": "Every pair of fields of every struct.", "anchors": ["yaserde_derive/src/common/field.rs: get_visitor_ident"]}
{"id": "C47", "title": "A field gets a value only from something of its name", "statement": "If nowhere in a document there is an attribute of the name of an attribute field, an element of the name and namespace of an element field, or a text for a text field, an accepted value holds what C10 says for a missing field; if that is an error, the document is not accepted.", "quantifier": "all struct definitions, all their fields that are not flattened, all documents, malformed ones included", "why_tests_cant": "All documents; other fields, nested and flattened ones included, are arbitrary.", "anchors": ["yaserde_derive/src/de/expand_struct.rs: parse, struct_builder"]}
{"id": "C48", "title": "What was read can be written and read again", "statement": "If from_str(s) = Ok(v) then to_string(v) = Ok(t) for some text t, and from_str(t) = Ok(v).", "quantifier": "all type definitions, all texts s that are accepted", "why_tests_cant": "Every accepted text, however it is written; unlike C28 nothing is asked of the value.", "anchors": ["yaserde_derive/src/de/expand_struct.rs: parse, struct_builder", "yaserde_derive/src/ser/expand_struct.rs: serialize", "yaserde/src/ser/mod.rs: to_string", "yaserde/src/de/mod.rs: from_str"]}
{"id": "C49", "title": "to_string_content is what to_string writes between the tags", "statement": "If to_string succeeds for a value of a type that has an element of its own, to_string_content gives exactly the text between the start tag and the end tag of that element.", "quantifier": "all type definitions, all values", "why_tests_cant": "All values.", "anchors": ["yaserde/src/ser/mod.rs: to_string_content, serialize_with_writer_content", "yaserde_derive/src/ser/implement_serializer.rs: implement_serializer", "yaserde_derive/src/ser/expand_enum.rs: serialize"]}
{"id": "C50", "title": "write_document_declaration only adds the declaration", "statement": "With write_document_declaration the text is the same as without, after the XML declaration and, when indenting, a line break (or both are empty); any type reads the same from both.", "quantifier": "all type definitions, values and configurations, all types it is read as", "why_tests_cant": "All values and configurations.", "anchors": ["yaserde/src/ser/mod.rs: Config, new_from_writer"]}
{"id": "C51", "title": "Every error has a cause in the document", "statement": "If from_str returns an error then it is the parser's error on the text, or it names an element of the document in a namespace that is not the one bound to the prefix of the type or field, a field of one of the types that has no default and is neither optional nor a list, an attribute of the document whose value is none of its field's type, a start tag without the enum's tag attribute, variants of different kinds in a sequence, a text that is none of a newtype's, or the end of the document inside of an enum; internal errors of the reader are never returned.", "quantifier": "all type definitions, all texts", "why_tests_cant": "All texts, all types, nested ones included.", "anchors": ["yaserde_derive/src/de/expand_struct.rs: parse, struct_builder, attributes_loading", "yaserde_derive/src/de/expand_enum.rs: parse", "yaserde/src/de/mod.rs: read_inner_value, expect_end_element", "yaserde_derive/src/common/attribute.rs: get_namespace_matching"]}
{"id": "C52", "title": "Broken-off input yields an error or the right value", "statement": "If the input ends inside of the document, or its reader fails after any number of bytes, then from_str and from_reader return an error, or the value they return for every continuation of the input.", "quantifier": "all type definitions, all texts, all places to break off, all continuations", "why_tests_cant": "Every document, every place, every continuation.", "anchors": ["yaserde/src/de/mod.rs: from_reader, inner_next, peek", "yaserde_derive/src/de/expand_struct.rs: parse (loop)", "yaserde_derive/src/de/expand_enum.rs: parse (break)", "yaserde/src/primitives.rs: deserialize_primitives"]}
{"id": "C53", "title": "A nested element is read like a document of its own", "statement": "Wherever in a document a complete element is read for a type, the outcome is that of reading the element alone, whatever the depth and whatever follows.", "quantifier": "all type definitions, elements, depths and contexts", "why_tests_cant": "Depth counting is relative in every generated loop only if no combination of types and depths tells otherwise.", "anchors": ["yaserde_derive/src/de/expand_struct.rs: parse (start_depth)", "yaserde_derive/src/de/expand_enum.rs: parse (start_depth)", "yaserde/src/de/mod.rs: skip_element, next_event"]}
{"id": "C54", "title": "Loosening a definition keeps documents readable", "statement": "If a field or a payload becomes an Option, a field gets a default, or something changes that only concerns writing, then every document that was read before is still read, with the same values (in Some where it became optional).", "quantifier": "all type definitions, all such changes, all texts", "why_tests_cant": "All documents that anybody has stored; all types at once.", "anchors": ["yaserde_derive/src/de/expand_struct.rs: struct_builder, call_visitors, call_flatten_visitors, attributes_loading, set_text", "yaserde_derive/src/de/expand_enum.rs: set_opt, set_val"]}
{"id": "C55", "title": "How a document is spelled does not matter", "statement": "Every text that is an XML document according to the grammar of XML and whose names can be resolved is accepted by the parser, as the tree it denotes; two texts that spell the same document (references, CDATA sections, comments, processing instructions, quotes, white space in tags, empty element tags, XML and document type declarations) are read alike by every type.", "quantifier": "all texts of the grammar, all type definitions", "why_tests_cant": "Every document, no bound on size or nesting; internal DTD subsets and encodings other than UTF-8 are left out.", "anchors": ["yaserde/src/de/mod.rs: new_from_reader (parser configuration), inner_next"]}
{"id": "C56", "title": "What is written is a well-formed document", "statement": "Every text that to_string or to_string_with_config returns is a document of the grammar of XML with all its names resolved, and denotes the tree the value stands for.", "quantifier": "all type definitions, values and configurations", "why_tests_cant": "All values; the grammar is that of C55 and knows nothing of the emitter.", "anchors": ["yaserde/src/ser/mod.rs: to_string_with_config, new_from_writer", "yaserde_derive/src/ser/implement_serializer.rs: implement_serializer", "yaserde_derive/src/ser/expand_enum.rs: serialize"]}
{"id": "C57", "title": "The order of fields and new fields do not matter for reading", "statement": "If the fields of structs change their order, or structs get new fields that may be missing, then every document that has nothing for the new fields is read exactly if it was read before, with the same values in their new places and the new fields missing.", "quantifier": "all type definitions, all such changes, all texts", "why_tests_cant": "All documents; all types at once; both directions.", "anchors": ["yaserde_derive/src/de/expand_struct.rs: call_visitors, attributes_loading, set_text, struct_builder, call_flatten_visitors", "yaserde_derive/src/de/expand_enum.rs: parse"]}
{"id": "C58", "title": "A flattened struct is written as its fields would be", "statement": "If a field whose only attribute is flatten is replaced by the fields of its struct type (and the struct binds the namespaces of that type), at any depth and in any number of types, then every value is written as the same document but for the order of attributes and namespace declarations; readers without flattened fields see no difference.", "quantifier": "all type definitions, all such changes, all values, all serializer configurations, all readers", "why_tests_cant": "All types and values; nested flattening.", "anchors": ["yaserde_derive/src/ser/expand_struct.rs: serialize, flatten branches", "yaserde_derive/src/ser/implement_serializer.rs: implement_serializer", "yaserde/src/ser/mod.rs: serialize_with_writer, skip_start_end"]}
{"id": "C59", "title": "A flattened struct is read as its fields would be", "statement": "If a field whose only attribute is flatten is replaced by the fields of its struct type (and the struct binds the namespaces of that type), at any depth and in any number of types, then every document is read as the same value, with the fields of the flattened structs in their place; a document is read by the one definition if and only if it is read by the other.", "quantifier": "all type definitions, all such changes in which no two element fields of a struct get the same name, all documents", "why_tests_cant": "All types and documents; nested flattening, in lists, options and payloads.", "anchors": ["yaserde_derive/src/de/expand_struct.rs: parse, flatten branches and unused_xml_elements", "yaserde/src/de/mod.rs: from_str"]}
{"id": "C60", "title": "Rust identifiers behind a rename and attributes about writing do not matter for reading", "statement": "If types, fields and variants that have a rename change their Rust identifiers, and attributes that concern writing only (skip_serializing, skip_serializing_if, cdata, default_namespace, prefix and flatten of variants) are added or removed, then every document is read with the same outcome; only the identifiers in the message about a missing field change.", "quantifier": "all type definitions, all such changes, all event sources", "why_tests_cant": "All inputs: values, errors, panics and non-termination alike.", "anchors": ["yaserde_derive/src/de/expand_struct.rs: parse", "yaserde_derive/src/de/expand_enum.rs: parse", "yaserde_derive/src/common/field.rs: renamed_label_without_namespace", "yaserde_derive/src/common/attribute.rs: xml_element_name"]}
{"id": "C61", "title": "Rust identifiers behind a rename and default values of enums do not matter for writing", "statement": "If types, fields and variants that have a rename change their Rust identifiers, and enums their Default value, then every value is written in the same way, in every configuration and also when the underlying writer fails.", "quantifier": "all type definitions, all such changes, all values, all serializer configurations, all failing writers", "why_tests_cant": "All values and states of the serializer; the same calls in the same order.", "anchors": ["yaserde_derive/src/ser/expand_struct.rs: serialize", "yaserde_derive/src/ser/implement_serializer.rs: implement_serializer", "yaserde_derive/src/common/field.rs: renamed_label", "yaserde_derive/src/ser/label.rs: build_label_name"]}
{"id": "C62", "title": "What is written follows from the value by structural rules", "statement": "What to_string and to_string_with_config write for a value is the document that the value and its type definitions give by recursion on the value (attributes, element per field or item, nothing for what is left out, content of flattened parts in place), whatever was written before or after; they fail exactly for values without such a document.", "quantifier": "all type definitions, values and configurations", "why_tests_cant": "All values; the serializer's mutable state (skip_start_end, start_event_name) must be right at every point.", "anchors": ["yaserde_derive/src/ser/expand_struct.rs: serialize", "yaserde_derive/src/ser/implement_serializer.rs: implement_serializer", "yaserde_derive/src/ser/expand_enum.rs: serialize", "yaserde/src/ser/mod.rs: to_string_with_config, set_skip_start_end, set_start_event_name"]}
{"id": "C63", "title": "What is read follows from the document by structural rules", "statement": "Every element is read as the value, error or panic that the type definitions give by recursion on the element (attributes, children that belong to fields, texts, flattened parts from what is left), at any depth and whatever follows; documents are so read from every spelling.", "quantifier": "all type definitions, all elements, all contexts", "why_tests_cant": "All documents; the event loops must keep their depth counters and peeked events right at every point.", "anchors": ["yaserde_derive/src/de/expand_struct.rs: parse", "yaserde_derive/src/de/expand_enum.rs: parse", "yaserde/src/primitives.rs: deserialize_primitives", "yaserde/src/de/mod.rs: from_str, next_event, peek"]}
{"id": "C64", "title": "Where a type is declared does not matter", "statement": "Two types declared by the same text, up to names of types that are themselves declared by the same text, read the same and write the same, in different programs or in one; types that a type does not reach can be changed, added and left out.", "quantifier": "all type definitions, all event sources and reader states, all values, all failing writers", "why_tests_cant": "All programs: recursive types, any number of other types.", "anchors": ["yaserde_derive/src/de/expand_struct.rs: parse", "yaserde_derive/src/de/expand_enum.rs: parse", "yaserde_derive/src/ser/expand_struct.rs: serialize", "yaserde_derive/src/ser/expand_enum.rs: serialize"]}
{"id": "C65", "title": "Programs without the new fields read the documents of those that have them", "statement": "When structs get new fields, of any kind and anywhere among the others, a program with the old definitions reads every document that one with the new definitions reads; the value is the same without the new fields.  In particular it reads what the new program writes.", "quantifier": "all pairs of definitions that differ in added and reordered fields, all documents", "why_tests_cant": "All such pairs: nested and recursive types, new types, attributes, lists, options and defaults.", "anchors": ["yaserde_derive/src/de/expand_struct.rs: parse", "yaserde_derive/src/de/expand_enum.rs: parse", "yaserde_derive/src/ser/expand_struct.rs: serialize"]}
{"id": "C66", "title": "New fields that are left empty do not show", "statement": "When structs get new fields that may be missing in documents (options, lists, fields with a default), values whose new fields are empty are written exactly as the old definitions write them.  The new program reads what the old one writes, with the new fields empty, and writes it again as it was.", "quantifier": "all pairs of definitions that differ in added fields, all values, all configurations", "why_tests_cant": "All such pairs: nested and recursive types, attributes and elements, lists, options and defaults, flattened fields.", "anchors": ["yaserde_derive/src/ser/expand_struct.rs: serialize", "yaserde_derive/src/de/expand_struct.rs: parse"]}
{"id": "C67", "title": "Definitions are taken as they are written", "statement": "The type definition that code is generated for has the name, the fields or variants in their order, the options of the first #[yaserde(..)] attribute, and the types of the Rust definition; paths, groups and other attributes around them do not matter.", "quantifier": "all Rust definitions, in modules that neither redefine nor alias the names of the prelude", "why_tests_cant": "All definitions: every nesting of paths, groups and attributes.", "anchors": ["yaserde_derive/src/common/field.rs: From<&syn::Field> for Field, From<&syn::Path> for Field", "yaserde_derive/src/common/attribute.rs: TryFrom<&Attribute>, From<&Vec<Attribute>> for YaSerdeAttribute"]}
{"id": "C68", "title": "Options are in force as they are written", "statement": "If code is generated for a definition, every option written in its #[yaserde(..)] attributes is in force with the value written, in whatever order they are, and options that are not written have their defaults; an option written twice or with a value of the wrong kind is a compile-time error.", "quantifier": "all lists of options, all values", "why_tests_cant": "All lists of options in all orders.", "anchors": ["yaserde_derive/src/common/attribute.rs: YaSerdeAttribute, TryFrom<&Attribute>, From<&Vec<Attribute>> for YaSerdeAttribute"]}
{"id": "C69", "title": "The text and its indentation", "statement": "The text written by to_string_with_config is the text of the document of the value: the declaration if it is asked for, tags with the attributes and the namespace declarations that are not yet in force, special characters as references, elements without content as one tag; with perform_indent every element begins on a new line indented to its depth unless text comes before it beside it, end tags of elements that contain only elements are on lines of their own, and nothing else is added; without perform_indent nothing is added at all.", "quantifier": "all type definitions, values and configurations", "why_tests_cant": "All values, depths, mixtures of text and elements, and indentation strings.", "anchors": ["yaserde/src/ser/mod.rs: Config, new_from_writer, to_string_with_config"]}
{"id": "C70", "title": "Hand-written implementations inside of derived types", "statement": "A derived type works with hand-written implementations of the types of its fields and payloads. Reading: if the implementation of every such type, called at the start tag of its element, gives some outcome and stops inside of the element (before the end tag, before a last text, or at the start tag of an element without content), then the derived deserialize gives the value with these outcomes in their places, reads everything else as usual, fails with the first failure, and itself stops before its end tag; attributes of such a type are read from the document <T>value</T>, flattened fields from the rest of the element. Writing: if serialize of every such type makes certain write calls, the derived serialize makes these calls in the place of the field or payload, after having announced the element name and whether a tag is wanted, and fails if they fail.", "quantifier": "all derived type definitions, all client programs of the Deserializer as hand-written deserialize and all serializer programs as hand-written serialize, all elements, depths and following events", "why_tests_cant": "All hand-written programs are quantified over, together with everything that surrounds the element.", "anchors": ["yaserde_derive/src/de/expand_struct.rs: call_visitor for fields of user type; yaserde_derive/src/de/expand_enum.rs: call_struct_visitor; yaserde_derive/src/ser/expand_struct.rs, yaserde_derive/src/ser/expand_enum.rs: YaSerialize::serialize calls; yaserde/src/lib.rs: YaDeserialize, YaSerialize"]}
{"id": "C71", "title": "usize, isize and char fields, simple types in generic structs", "statement": "A field of type usize, isize or char, or of a type parameter for which a simple type is given, is written like the fields of other simple types: as an element, or attribute, with the name of the field and the text of the value; values that differ have different documents, a failing write is reported, and a value alone is written as a document.", "quantifier": "all type definitions with fields, options, vectors, attributes and payloads of these types, all values, configurations and failing writes", "why_tests_cant": "All values and definitions are quantified over, as the behaviour of the impls of the library depends on none of them.", "anchors": ["yaserde/src/lib.rs: serialize_type!; yaserde_derive/src/common/field.rs: From<&syn::Path>; yaserde_derive/src/ser/expand_struct.rs: FieldStruct"]}
{"id": "C72", "title": "Unicode in, Unicode out: the UTF-8 checks never fail", "statement": "For a Unicode document, and definitions and user code with Unicode strings, every string in the value that is read is Unicode, and the check on the collected text of flattened fields does not panic. For a Unicode value the text written is Unicode, with or without the outermost tag and with every configuration, and the checks on it do not panic.", "quantifier": "all type definitions, documents, values and configurations whose strings are Unicode", "why_tests_cant": "All texts: characters of every length in names, texts, attributes, references and flattened parts; a cut inside of a character anywhere would break it.", "anchors": ["yaserde/src/ser/mod.rs: to_string, to_string_with_config, to_string_content", "yaserde_derive/src/de/expand_struct.rs: String::from_utf8(buf).unwrap()", "yaserde/src/de/mod.rs: from_str"]}
{"id": "C73", "title": "Input that is not UTF-8", "statement": "from_reader reads a Unicode text as from_str does. Any other bytes are read as the longest Unicode beginning of them, followed by a failure of the reader: the remaining bytes have no influence. Whatever the bytes are, every string in a value that is read is Unicode and no UTF-8 check panics; a struct or enum that is read all the same is the one read from every continuation of the Unicode beginning.", "quantifier": "all byte sequences, all type definitions with Unicode strings", "why_tests_cant": "All byte sequences: characters cut short, overlong forms, surrogates and stray bytes anywhere.", "anchors": ["yaserde/src/de/mod.rs: from_reader, inner_next", "yaserde_derive/src/de/expand_struct.rs: String::from_utf8(buf).unwrap()"]}
{"id": "C74", "title": "Writers that take a limited number of bytes", "statement": "serialize_with_writer to a writer that takes n bytes and then fails succeeds exactly if the text that to_string_with_config returns has at most n bytes. In both cases exactly the events whose text fits arrive completely.", "quantifier": "all type definitions, values, configurations and numbers of bytes", "why_tests_cant": "Every place where the space can run out.", "anchors": ["yaserde/src/ser/mod.rs: serialize_with_writer, write", "yaserde/src/lib.rs: serialize_type! (let _ret)", "yaserde_derive/src/ser/implement_serializer.rs: implement_serializer", "yaserde_derive/src/ser/expand_enum.rs: serialize"]}
{"id": "C75", "title": "One serializer for several values", "statement": "Values serialized one after the other with the same Serializer are written as with a new Serializer each: the events are those of the first value, then those of the second one, and so on.", "quantifier": "all type definitions and lists of values that can each be serialized", "why_tests_cant": "The flags skip_start_end and start_event_name are state of the serializer.", "anchors": ["yaserde/src/ser/mod.rs: Serializer::new, set_skip_start_end, set_start_event_name", "yaserde_derive/src/ser/expand_struct.rs: serialize", "yaserde_derive/src/ser/implement_serializer.rs: implement_serializer"]}
{"id": "C76", "title": "What a type is told about elements is coherent", "statement": "In the events that are delivered for any text, accepted or not, start and end tags match and texts stand inside of elements; every element and attribute name is in the namespace that the bindings delivered with its start tag give its prefix (the default namespace for elements without prefix, none for attributes without prefix); no start tag has two attributes with the same qualified name; every prefix bound in an element is bound in the elements inside of it; and all elements of an accepted text are closed.", "quantifier": "all texts", "why_tests_cant": "All texts, well-formed or not.", "anchors": ["yaserde/src/de/mod.rs: new_from_reader (parser configuration), inner_next, peek, next_event"]}
{"id": "C77", "title": "One deserializer for several values", "statement": "A client that reads several elements one after the other with one Deserializer (deserialize, then next_event until depth is what it was in front of the element) gets for each element the value that its type reads from the element in a document of its own, and finds itself behind the last element, at the depth where it began.", "quantifier": "all type definitions, sequences of types and elements, depths, and whatever follows", "why_tests_cant": "Every sequence, every place where a deserializer may stop inside of its element (in front of the end tag, of a text, at the start tag).", "anchors": ["yaserde/src/de/mod.rs: next_event, depth", "yaserde_derive/src/de/expand_struct.rs: parse", "yaserde_derive/src/de/expand_enum.rs: parse", "yaserde/src/primitives.rs: deserialize_primitives"]}
{"id": "C78", "title": "Values appended to one text", "statement": "Values that are written one after the other into one text (to_string_with_config, the texts appended, with white space, comments and processing instructions between), each of which can be read back from its own text, are read back one after the other from the whole text with one Deserializer.", "quantifier": "all type definitions, sequences of values, configurations and fillings between the texts", "why_tests_cant": "Every sequence of every length, indented or not, with or without declarations.", "anchors": ["yaserde/src/ser/mod.rs: to_string_with_config, new_from_writer", "yaserde/src/de/mod.rs: next_event, depth", "yaserde_derive/src/de/expand_struct.rs: parse", "yaserde_derive/src/de/expand_enum.rs: parse"]}
{"id": "C79", "title": "Declarations behind the root element", "statement": "An XML declaration or a document type declaration that follows the root element (or several root elements), or other markup beginning with <! there that is no comment and no CDATA section, is refused: the elements in front are delivered as in a document without it, then comes an error, and nothing of what follows is delivered.", "quantifier": "all documents, declarations and texts that follow", "why_tests_cant": "Every document; every text behind the declaration.", "anchors": ["yaserde/src/de/mod.rs: inner_next, new_from_reader"]}
