#!/usr/bin/env python3
# Generates /verif/properties.jsonl (one JSON object per line).
import json
P=[]
def p(id,title,statement,quant,why,*anchors):
    P.append(dict(id=id,title=title,statement=statement,quantifier=quant,why_tests_cant=why,anchors=list(anchors)))
DE="yaserde/src/de/mod.rs"; SER="yaserde/src/ser/mod.rs"; LIB="yaserde/src/lib.rs"; PRIM="yaserde/src/primitives.rs"
DS="yaserde_derive/src/de/expand_struct.rs"; DEN="yaserde_derive/src/de/expand_enum.rs"
SS="yaserde_derive/src/ser/expand_struct.rs"; SEN="yaserde_derive/src/ser/expand_enum.rs"; SI="yaserde_derive/src/ser/implement_serializer.rs"
EL="yaserde_derive/src/ser/element.rs"; FI="yaserde_derive/src/common/field.rs"; AT="yaserde_derive/src/common/attribute.rs"; DP="yaserde_derive/src/primitives.rs"; LB="yaserde_derive/src/ser/label.rs"

p("C01","Peeking never changes what is read","For any code using a Deserializer, adding a peek() call at any point changes neither the events later returned by next_event(), nor depth(), nor any error, nor the final result.","all Deserializer client programs, all event sources, all insertion points","The claim is about every interleaving of peek and next_event over every input, not about one call sequence.",DE+": Deserializer::peek, Deserializer::next_event, Deserializer::inner_next")
p("C02","depth() is the number of open elements","After any history of calls, depth() equals the number of start tags minus the number of end tags handed out by next_event(); on the events of any well-nested document it never goes below zero (so the usize subtraction never panics) and is zero once all elements are closed.","all histories of Deserializer calls, all well-nested event sources","Needs an invariant over unboundedly long call histories and nesting depths.",DE+": Deserializer::next_event, Deserializer::depth")
p("C03","XML declaration, processing instructions and comments are invisible","Deserializing any type (derived or hand written against the Deserializer API) from an event source gives the same result as from the source with all StartDocument, ProcessingInstruction and Comment events removed.","all client programs, all event sources, any placement of such events","Placement of noise events is unbounded.",DE+": Deserializer::inner_next")
p("C04","skip_element consumes exactly one element","Called right after the start tag of an element was read, skip_element passes every remaining event of that element (to its matching end tag, inclusive) to the callback in order, stops right after it, and restores depth() to the value before the start tag; if the source fails first, the error is returned.","all element contents (any nesting depth and size), all following input","Nesting is unbounded; a same-named descendant must not end the skip early.",DE+": Deserializer::skip_element")
p("C05","read_inner_value accepts only a properly closed element","read_inner_value returns Ok only if a start tag was read, the closure succeeded and the very next event is the end tag with the same full name; then the reader stands right after that end tag at the original depth.","all closures, all reader states","Quantifies over every closure and every reader state.",DE+": Deserializer::read_inner_value, Deserializer::expect_end_element")
p("C06","Input after the point where deserialization stops is irrelevant","If a deserialization finishes having looked only at a prefix of the events, then any other continuation of the input (further elements, garbage, errors) gives exactly the same result.","all client programs, all prefixes and all continuations","Ranges over all continuations.",DE+": Deserializer::next_event",DS+": parse")
p("C07","Integer text round trip","For each of i8,u8,i16,u16,i32,u32,i64,u64, parsing the Display text of any value gives back that value.","all values of all eight integer types","2^64 values cannot be enumerated.",FI+": Field (FieldI8..FieldU64)",EL+": enclose_formatted_characters_for_value",DS+": simple_type_visitor")
p("C08","Integer fields accept exactly in-range decimal numerals","A field of an integer type accepts a text exactly when it is an optional sign ('+' always, '-' only for signed types) followed by one or more decimal digits denoting a value in the range of the type, and then yields that value; everything else is rejected with an error and never wraps.","all strings, all eight integer types","All strings.",DS+": simple_type_visitor (from_str)")
p("C09","Bool lexical forms","A bool struct field accepts exactly the texts true, false, 1 and 0 (with their xs:boolean meaning); to_string writes true or false.","all strings","All strings.",DS+": map_if_bool")
p("C10","Missing data: required, Option, Vec, default","When no child element or attribute supplies a field: an Option field becomes None, a Vec field becomes empty, a field with default=f gets f(), and any other field makes deserialization fail with '<field> is a required field of <Type>'.","all struct definitions, all documents","Ranges over all struct definitions and all other content of the document.",DS+": struct_builder",  "yaserde_derive/src/de/build_default_value.rs")
p("C11","Child element order does not matter","Permuting the child elements of a struct element without changing the relative order of children with the same name gives the same deserialized value.","all struct definitions, all conforming documents, all such permutations","Factorially many orders, unbounded numbers of children.",DS+": parse (call_visitors)")
p("C12","Repeated elements","For a Vec field the values of all matching child elements are collected in document order; for a scalar field the last matching (parseable) child wins.","all struct definitions, any number of repetitions","Unbounded repetition counts.",DS+": visit_sub, visit_simple actions")
p("C13","Unknown content is ignored","Adding a child element that matches no field (with any content, including descendants named like fields), or an attribute that matches no attribute field, does not change the deserialized value.","all struct definitions, documents, unknown subtrees and insertion points","Unknown subtrees are arbitrary.",DS+": parse (skip_element arm)")
p("C14","Attributes come only from the element's own start tag","An attribute field is read only from the start tag of the struct's own element, never from a descendant or sibling.","all struct definitions, all documents","Ranges over all documents, including mixed content.",DS+": attributes_loading, depth counter")
p("C15","Root element: name ignored, namespace checked","At top level the local name of the root element is irrelevant unless it collides with a field, while a namespaced root element is accepted only if its namespace is the one bound to the struct's prefix; otherwise the error is 'bad namespace for <name>, found <ns>'.","all struct definitions, all root names and namespaces","All names and namespaces.",AT+": get_namespace_matching",DS+": namespaces_matching")
p("C16","Invalid simple content","An unparseable or empty text in a child element of simple type is treated as if the element were absent, while an unparseable attribute value aborts deserialization with the parse error.","all struct definitions, all texts","All texts and positions.",DS+": build_call_visitor, attributes_loading")
p("C17","Deserialization terminates","from_str returns (Ok or Err) for every input document.","all type definitions, all documents","Non-termination on some input is a liveness property over all inputs.",DS+": parse (loop, EndDocument arm)",DEN+": parse")
p("C18","Deserialization does not panic","from_str never panics, whatever the input.","all type definitions, all documents","All inputs.",DEN+": simple_type_visitor (unwrap)",DE+": next_event (depth -= 1)",DS+": build_code_for_unused_xml_events (unwrap)")
p("C19","Derived deserializers consume exactly their element","When a derived struct deserializer is called at the start tag of an element of a well-formed document and returns Ok, the next event is the end tag of that same element and depth() is one more than at the call; surrounding content is untouched.","all struct definitions, all conforming elements, all surrounding documents","Unbounded nesting; composition of arbitrary types relies on it.",DS+": parse, visit_struct")
p("C20","Returned values are well typed","Every value returned by a derived deserializer has the declared shape and every integer in it is within the range of its declared type.","all definitions, all inputs, even malformed","All inputs.",DS+": parse",DEN+": parse")
p("C21","Serialized output is well nested","The events written by serialize of any value are properly nested; a non-flattened type produces exactly one root element; the writer's 'no open element' error cannot occur.","all type definitions, all values","All values, arbitrary nesting.",SI+": implement_serializer",SS+": serialize",SEN+": serialize")
p("C22","One element per Vec item, none for None","A Vec field writes exactly one element per item in order, an Option field writes one element for Some and nothing for None.","all type definitions, all values","Unbounded lengths.",SS+": struct_inspector")
p("C23","skip_serializing, skip_serializing_if and default suppress a field","A field marked skip_serializing, or whose skip_serializing_if predicate holds, or whose value equals its default, contributes nothing to the output.","all type definitions, all values, all predicates","Predicates and values are arbitrary.",EL+": condition_generator",FI+": ser_wrap_default_attribute","doc/skip_serializing.md")
p("C24","Write errors are reported","If serialize returns Ok then every event it issued was accepted by the writer (no write error is swallowed); if a write fails, serialize stops and returns an error.","all type definitions, all values, all failure points","Every possible failure point.",LIB+": serialize_type!",SI+": implement_serializer",PRIM+": serialize_primitives")
p("C25","Serializing a field does not depend on what was serialized before","The events written for a field are a function of the field's value and definition only, not of the serializer's leftover skip/start-name flags from earlier fields.","all type definitions, all values, all prior serializer states","All histories.",SER+": Serializer::set_skip_start_end, set_start_event_name",SS+": struct_inspector",SEN+": inner_enum_inspector")
p("C26","The reader recognises the names the writer uses","The qualified name written for a struct field, resolved with the namespaces declared on the struct's element, is exactly the (namespace, local name) pair the reader matches for that field.","all struct attribute configurations and fields","All combinations of prefix/default_namespace/namespaces/rename.",FI+": renamed_label, prefix_namespace",AT+": prefix_namespace","yaserde_derive/src/ser/namespace.rs")
p("C27","Struct round trip (event level)","Reading the XML events written for a struct value gives back the value.","all struct definitions in the supported class (attributes, element, text, Option, Vec, nested, recursive), all values with non-empty trimmed text","All definitions and all values.",SS+": serialize",DS+": parse")
p("C28","Round trip through text","from_str(to_string(v)) = Ok(v).","all struct definitions in the supported class, all values","All definitions and values, all characters.",SER+": to_string",DE+": from_str")
p("C29","Enum round trip","A struct field of enum type (unit variants, and one-payload variants over String, integers, structs, Option and Vec) survives serialization followed by deserialization.","all enum definitions, all values","All definitions and values.",SEN+": serialize",DEN+": parse")
p("C30","Unknown enum variant yields the default","If an enum element contains neither a known variant element nor a known variant text the result is Ok(Default::default()).","all enum definitions, all documents","All documents.",DEN+": parse")
p("C31","Tagged enum round trip","A unit-variant enum with tag=t is written as an element with attribute t=<variant> and is read back as the same variant.","all tagged unit enums, all variants","All definitions.",SEN+": add_tag",DEN+": element_name")
p("C32","Attributes of user-defined type","An attribute whose type is a user-defined unit enum or primitive newtype is written as that type's text and read back to the same value.","all such types, all values","All values, including texts with markup characters.",SS+": FieldStruct attribute",DS+": struct_visitor",SER+": to_string_content")
p("C33","Primitive newtypes round trip","Types deriving PrimitiveYaSerde, DefaultYaSerde or HexBinaryYaSerde survive serialization followed by deserialization.","all such types, all values","All values.",PRIM+": serialize_primitives, deserialize_primitives",DP+": hexbinary_serde, primitive_serde, primitive_yaserde")
p("C34","flatten collects exactly the unmatched content","A flattened field is deserialized from the struct element with the children matched by the struct's own fields removed; its children and attributes are merged into the parent on output.","all struct definitions with flatten fields, all conforming documents","All documents.",DS+": build_code_for_unused_xml_events, call_flatten_visitors",SI+": serialize_attributes")
p("C35","String content never becomes markup","Whatever characters a String field contains, the written text parses back to a single text/attribute value; it can not create or close elements or attributes.","all strings","All strings.",EL+": enclose_xml_event",SS+": attr")
p("C36","CDATA fields round trip","A cdata field's content is read back unchanged.","all strings","All strings.",SS+": is_cdata",SER+": new_from_writer (cdata_to_characters(false))")
p("C37","Indentation does not change the data","Deserializing the output of to_string_with_config with perform_indent gives the same result as deserializing the output of to_string.","all struct definitions, values and indentation strings made of white space","All values and configurations.",SER+": Config, new_from_writer")
p("C38","Attribute lookup respects namespaces","An attribute field without prefix is not affected by an attribute of the same local name in another namespace.","all struct definitions, all attribute lists","All attribute lists.",DS+": attributes_loading")
p("C39","Text field content","A text field receives the text of its element.","all struct definitions with a text field, all documents","All documents, including mixed content.",DS+": set_text")
p("C40","Attribute lists","An attribute field of type Vec<T> is read as the white-space separated list of its items and every attribute field that is read is also written.","all Vec attribute fields, all values","All values.",DS+": visit_vec",SS+": FieldVec attribute")
p("C41","Unfinished documents are rejected","from_str never accepts a text that ends (or becomes malformed) before its root element is closed.","all type definitions, all texts","Every truncation of every document.",DS+": parse (loop)",DEN+": parse (break)",PRIM+": deserialize_primitives")
p("C42","Prefixes, namespace declarations and attribute order do not matter","Two documents whose elements have the same local names, namespaces, texts and attributes are read alike, whatever prefixes they use, wherever the namespaces are declared and in whatever order the attributes of an element stand.","all type definitions, all pairs of such documents, malformed ones included","All pairs of documents.",DS+": parse, attributes_loading",DEN+": parse",DE+": expect_end_element")
p("C43","Different values are written as different texts","If to_string gives the same text for two values of a type, the values are equal.","all type definitions, all pairs of values","All pairs of values.",SS+": struct_inspector",SER+": to_string")
p("C44","A field is handled as the type it has","Whenever a derive macro generates code, a field of type String, bool, an integer or float type, Option<T> or Vec<T> is handled as such, and a field of any other type through that type's own implementation.","all field types, all name resolutions","Every type syntax, in every module.","yaserde_derive/src/common/field.rs: From<&syn::Path>, From<&syn::Field>, From<&syn::PathSegment>")
p("C45","Unsupported definitions are compile-time errors","If both traits can be derived for a definition, every field of it, those of variants included, has a type that is read and written: a simple or user type, or an Option or Vec of one. Definitions that keep to the documented forms are accepted.","all struct, enum and union definitions with all attributes","Every definition, no bound on fields or nesting.",DS+": parse",DEN+": parse_variant",SS+": serialize","yaserde_derive/src/ser/expand_enum.rs: serialize","yaserde_derive/src/common/attribute.rs: From<&Vec<Attribute>>")
p("C46","Generated visitors have different names","Two fields of a struct that differ in XML (attribute or element, prefix, name) never get visitors of the same name, so the generated code compiles.","all pairs of fields","Every pair of fields of every struct.","yaserde_derive/src/common/field.rs: get_visitor_ident")
p("C47","A field gets a value only from something of its name","If nowhere in a document there is an attribute of the name of an attribute field, an element of the name and namespace of an element field, or a text for a text field, an accepted value holds what C10 says for a missing field; if that is an error, the document is not accepted.","all struct definitions, all their fields that are not flattened, all documents, malformed ones included","All documents; other fields, nested and flattened ones included, are arbitrary.",DS+": parse, struct_builder")
p("C48","What was read can be written and read again","If from_str(s) = Ok(v) then to_string(v) = Ok(t) for some text t, and from_str(t) = Ok(v).","all type definitions, all texts s that are accepted","Every accepted text, however it is written; unlike C28 nothing is asked of the value.",DS+": parse, struct_builder",SS+": serialize",SER+": to_string",DE+": from_str")
p("C49","to_string_content is what to_string writes between the tags","If to_string succeeds for a value of a type that has an element of its own, to_string_content gives exactly the text between the start tag and the end tag of that element.","all type definitions, all values","All values.",SER+": to_string_content, serialize_with_writer_content",SI+": implement_serializer",SEN+": serialize")
p("C50","write_document_declaration only adds the declaration","With write_document_declaration the text is the same as without, after the XML declaration and, when indenting, a line break (or both are empty); any type reads the same from both.","all type definitions, values and configurations, all types it is read as","All values and configurations.",SER+": Config, new_from_writer")
p("C51","Every error has a cause in the document","If from_str returns an error then it is the parser's error on the text, or it names an element of the document in a namespace that is not the one bound to the prefix of the type or field, a field of one of the types that has no default and is neither optional nor a list, an attribute of the document whose value is none of its field's type, a start tag without the enum's tag attribute, variants of different kinds in a sequence, a text that is none of a newtype's, or the end of the document inside of an enum; internal errors of the reader are never returned.","all type definitions, all texts","All texts, all types, nested ones included.",DS+": parse, struct_builder, attributes_loading",DEN+": parse",DE+": read_inner_value, expect_end_element",AT+": get_namespace_matching")
p("C52","Broken-off input yields an error or the right value","If the input ends inside of the document, or its reader fails after any number of bytes, then from_str and from_reader return an error, or the value they return for every continuation of the input.","all type definitions, all texts, all places to break off, all continuations","Every document, every place, every continuation.",DE+": from_reader, inner_next, peek",DS+": parse (loop)",DEN+": parse (break)",PRIM+": deserialize_primitives")
p("C53","A nested element is read like a document of its own","Wherever in a document a complete element is read for a type, the outcome is that of reading the element alone, whatever the depth and whatever follows.","all type definitions, elements, depths and contexts","Depth counting is relative in every generated loop only if no combination of types and depths tells otherwise.",DS+": parse (start_depth)",DEN+": parse (start_depth)",DE+": skip_element, next_event")
p("C54","Loosening a definition keeps documents readable","If a field or a payload becomes an Option, a field gets a default, or something changes that only concerns writing, then every document that was read before is still read, with the same values (in Some where it became optional).","all type definitions, all such changes, all texts","All documents that anybody has stored; all types at once.",DS+": struct_builder, call_visitors, call_flatten_visitors, attributes_loading, set_text",DEN+": set_opt, set_val")
p("C55","How a document is spelled does not matter","Every text that is an XML document according to the grammar of XML and whose names can be resolved is accepted by the parser, as the tree it denotes; two texts that spell the same document (references, CDATA sections, comments, processing instructions, quotes, white space in tags, empty element tags, XML and document type declarations) are read alike by every type.","all texts of the grammar, all type definitions","Every document, no bound on size or nesting; internal DTD subsets and encodings other than UTF-8 are left out.",DE+": new_from_reader (parser configuration), inner_next")
p("C56","What is written is a well-formed document","Every text that to_string or to_string_with_config returns is a document of the grammar of XML with all its names resolved, and denotes the tree the value stands for.","all type definitions, values and configurations","All values; the grammar is that of C55 and knows nothing of the emitter.",SER+": to_string_with_config, new_from_writer",SI+": implement_serializer",SEN+": serialize")
p("C57","The order of fields and new fields do not matter for reading","If the fields of structs change their order, or structs get new fields that may be missing, then every document that has nothing for the new fields is read exactly if it was read before, with the same values in their new places and the new fields missing.","all type definitions, all such changes, all texts","All documents; all types at once; both directions.",DS+": call_visitors, attributes_loading, set_text, struct_builder, call_flatten_visitors",DEN+": parse")
p("C58","A flattened struct is written as its fields would be","If a field whose only attribute is flatten is replaced by the fields of its struct type (and the struct binds the namespaces of that type), at any depth and in any number of types, then every value is written as the same document but for the order of attributes and namespace declarations; readers without flattened fields see no difference.","all type definitions, all such changes, all values, all serializer configurations, all readers","All types and values; nested flattening.",SS+": serialize, flatten branches",SI+": implement_serializer","yaserde/src/ser/mod.rs: serialize_with_writer, skip_start_end")
p("C59","A flattened struct is read as its fields would be","If a field whose only attribute is flatten is replaced by the fields of its struct type (and the struct binds the namespaces of that type), at any depth and in any number of types, then every document is read as the same value, with the fields of the flattened structs in their place; a document is read by the one definition if and only if it is read by the other.","all type definitions, all such changes in which no two element fields of a struct get the same name, all documents","All types and documents; nested flattening, in lists, options and payloads.",DS+": parse, flatten branches and unused_xml_elements","yaserde/src/de/mod.rs: from_str")
p("C60","Rust identifiers behind a rename and attributes about writing do not matter for reading","If types, fields and variants that have a rename change their Rust identifiers, and attributes that concern writing only (skip_serializing, skip_serializing_if, cdata, default_namespace, prefix and flatten of variants) are added or removed, then every document is read with the same outcome; only the identifiers in the message about a missing field change.","all type definitions, all such changes, all event sources","All inputs: values, errors, panics and non-termination alike.",DS+": parse",DEN+": parse","yaserde_derive/src/common/field.rs: renamed_label_without_namespace","yaserde_derive/src/common/attribute.rs: xml_element_name")
p("C61","Rust identifiers behind a rename and default values of enums do not matter for writing","If types, fields and variants that have a rename change their Rust identifiers, and enums their Default value, then every value is written in the same way, in every configuration and also when the underlying writer fails.","all type definitions, all such changes, all values, all serializer configurations, all failing writers","All values and states of the serializer; the same calls in the same order.",SS+": serialize",SI+": implement_serializer","yaserde_derive/src/common/field.rs: renamed_label","yaserde_derive/src/ser/label.rs: build_label_name")
p("C62","What is written follows from the value by structural rules","What to_string and to_string_with_config write for a value is the document that the value and its type definitions give by recursion on the value (attributes, element per field or item, nothing for what is left out, content of flattened parts in place), whatever was written before or after; they fail exactly for values without such a document.","all type definitions, values and configurations","All values; the serializer's mutable state (skip_start_end, start_event_name) must be right at every point.",SS+": serialize",SI+": implement_serializer",SEN+": serialize",SER+": to_string_with_config, set_skip_start_end, set_start_event_name")
p("C63","What is read follows from the document by structural rules","Every element is read as the value, error or panic that the type definitions give by recursion on the element (attributes, children that belong to fields, texts, flattened parts from what is left), at any depth and whatever follows; documents are so read from every spelling.","all type definitions, all elements, all contexts","All documents; the event loops must keep their depth counters and peeked events right at every point.",DS+": parse",DEN+": parse",PRIM+": deserialize_primitives",DE+": from_str, next_event, peek")
p("C64","Where a type is declared does not matter","Two types declared by the same text, up to names of types that are themselves declared by the same text, read the same and write the same, in different programs or in one; types that a type does not reach can be changed, added and left out.","all type definitions, all event sources and reader states, all values, all failing writers","All programs: recursive types, any number of other types.",DS+": parse",DEN+": parse",SS+": serialize",SEN+": serialize")
p("C65","Programs without the new fields read the documents of those that have them","When structs get new fields, of any kind and anywhere among the others, a program with the old definitions reads every document that one with the new definitions reads; the value is the same without the new fields.  In particular it reads what the new program writes.","all pairs of definitions that differ in added and reordered fields, all documents","All such pairs: nested and recursive types, new types, attributes, lists, options and defaults.",DS+": parse",DEN+": parse",SS+": serialize")
p("C66","New fields that are left empty do not show","When structs get new fields that may be missing in documents (options, lists, fields with a default), values whose new fields are empty are written exactly as the old definitions write them.  The new program reads what the old one writes, with the new fields empty, and writes it again as it was.","all pairs of definitions that differ in added fields, all values, all configurations","All such pairs: nested and recursive types, attributes and elements, lists, options and defaults, flattened fields.",SS+": serialize",DS+": parse")
p("C67","Definitions are taken as they are written","The type definition that code is generated for has the name, the fields or variants in their order, the options of the first #[yaserde(..)] attribute, and the types of the Rust definition; paths, groups and other attributes around them do not matter.","all Rust definitions, in modules that neither redefine nor alias the names of the prelude","All definitions: every nesting of paths, groups and attributes.",FI+": From<&syn::Field> for Field, From<&syn::Path> for Field",AT+": TryFrom<&Attribute>, From<&Vec<Attribute>> for YaSerdeAttribute")
p("C68","Options are in force as they are written","If code is generated for a definition, every option written in its #[yaserde(..)] attributes is in force with the value written, in whatever order they are, and options that are not written have their defaults; an option written twice or with a value of the wrong kind is a compile-time error.","all lists of options, all values","All lists of options in all orders.",AT+": YaSerdeAttribute, TryFrom<&Attribute>, From<&Vec<Attribute>> for YaSerdeAttribute")
p("C69","The text and its indentation","The text written by to_string_with_config is the text of the document of the value: the declaration if it is asked for, tags with the attributes and the namespace declarations that are not yet in force, special characters as references, elements without content as one tag; with perform_indent every element begins on a new line indented to its depth unless text comes before it beside it, end tags of elements that contain only elements are on lines of their own, and nothing else is added; without perform_indent nothing is added at all.","all type definitions, values and configurations","All values, depths, mixtures of text and elements, and indentation strings.",SER+": Config, new_from_writer, to_string_with_config")
p("C70","Hand-written implementations inside of derived types","A derived type works with hand-written implementations of the types of its fields and payloads. Reading: if the implementation of every such type, called at the start tag of its element, gives some outcome and stops inside of the element (before the end tag, before a last text, or at the start tag of an element without content), then the derived deserialize gives the value with these outcomes in their places, reads everything else as usual, fails with the first failure, and itself stops before its end tag; attributes of such a type are read from the document <T>value</T>, flattened fields from the rest of the element. Writing: if serialize of every such type makes certain write calls, the derived serialize makes these calls in the place of the field or payload, after having announced the element name and whether a tag is wanted, and fails if they fail.","all derived type definitions, all client programs of the Deserializer as hand-written deserialize and all serializer programs as hand-written serialize, all elements, depths and following events","All hand-written programs are quantified over, together with everything that surrounds the element.",DS+": call_visitor for fields of user type; "+DEN+": call_struct_visitor; "+SS+", "+SEN+": YaSerialize::serialize calls; "+LIB+": YaDeserialize, YaSerialize")
p("C71","usize, isize and char fields, simple types in generic structs","A field of type usize, isize or char, or of a type parameter for which a simple type is given, is written like the fields of other simple types: as an element, or attribute, with the name of the field and the text of the value; values that differ have different documents, a failing write is reported, and a value alone is written as a document.","all type definitions with fields, options, vectors, attributes and payloads of these types, all values, configurations and failing writes","All values and definitions are quantified over, as the behaviour of the impls of the library depends on none of them.",LIB+": serialize_type!; "+FI+": From<&syn::Path>; "+SS+": FieldStruct")
p("C72","Unicode in, Unicode out: the UTF-8 checks never fail","For a Unicode document, and definitions and user code with Unicode strings, every string in the value that is read is Unicode, and the check on the collected text of flattened fields does not panic. For a Unicode value the text written is Unicode, with or without the outermost tag and with every configuration, and the checks on it do not panic.","all type definitions, documents, values and configurations whose strings are Unicode","All texts: characters of every length in names, texts, attributes, references and flattened parts; a cut inside of a character anywhere would break it.",SER+": to_string, to_string_with_config, to_string_content",DS+": String::from_utf8(buf).unwrap()",DE+": from_str")
p("C73","Input that is not UTF-8","from_reader reads a Unicode text as from_str does. Any other bytes are read as the longest Unicode beginning of them, followed by a failure of the reader: the remaining bytes have no influence. Whatever the bytes are, every string in a value that is read is Unicode and no UTF-8 check panics; a struct or enum that is read all the same is the one read from every continuation of the Unicode beginning.","all byte sequences, all type definitions with Unicode strings","All byte sequences: characters cut short, overlong forms, surrogates and stray bytes anywhere.",DE+": from_reader, inner_next",DS+": String::from_utf8(buf).unwrap()")
p("C74","Writers that take a limited number of bytes","serialize_with_writer to a writer that takes n bytes and then fails succeeds exactly if the text that to_string_with_config returns has at most n bytes. In both cases exactly the events whose text fits arrive completely.","all type definitions, values, configurations and numbers of bytes","Every place where the space can run out.",SER+": serialize_with_writer, write",LIB+": serialize_type! (let _ret)",SI+": implement_serializer",SEN+": serialize")
p("C75","One serializer for several values","Values serialized one after the other with the same Serializer are written as with a new Serializer each: the events are those of the first value, then those of the second one, and so on.","all type definitions and lists of values that can each be serialized","The flags skip_start_end and start_event_name are state of the serializer.",SER+": Serializer::new, set_skip_start_end, set_start_event_name",SS+": serialize",SI+": implement_serializer")
p("C76","What a type is told about elements is coherent","In the events that are delivered for any text, accepted or not, start and end tags match and texts stand inside of elements; every element and attribute name is in the namespace that the bindings delivered with its start tag give its prefix (the default namespace for elements without prefix, none for attributes without prefix); no start tag has two attributes with the same qualified name; every prefix bound in an element is bound in the elements inside of it; and all elements of an accepted text are closed.","all texts","All texts, well-formed or not.",DE+": new_from_reader (parser configuration), inner_next, peek, next_event")
p("C77","One deserializer for several values","A client that reads several elements one after the other with one Deserializer (deserialize, then next_event until depth is what it was in front of the element) gets for each element the value that its type reads from the element in a document of its own, and finds itself behind the last element, at the depth where it began.","all type definitions, sequences of types and elements, depths, and whatever follows","Every sequence, every place where a deserializer may stop inside of its element (in front of the end tag, of a text, at the start tag).",DE+": next_event, depth",DS+": parse",DEN+": parse",PRIM+": deserialize_primitives")
p("C78","Values appended to one text","Values that are written one after the other into one text (to_string_with_config, the texts appended, with white space, comments and processing instructions between), each of which can be read back from its own text, are read back one after the other from the whole text with one Deserializer.","all type definitions, sequences of values, configurations and fillings between the texts","Every sequence of every length, indented or not, with or without declarations.",SER+": to_string_with_config, new_from_writer",DE+": next_event, depth",DS+": parse",DEN+": parse")
p("C79","Declarations behind the root element","An XML declaration or a document type declaration that follows the root element (or several root elements), or other markup beginning with <! there that is no comment and no CDATA section, is refused: the elements in front are delivered as in a document without it, then comes an error, and nothing of what follows is delivered.","all documents, declarations and texts that follow","Every document; every text behind the declaration.",DE+": inner_next, new_from_reader")
with open('/verif/properties.jsonl','w') as f:
    for x in P: f.write(json.dumps(x)+"\n")
print(len(P))
