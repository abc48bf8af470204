#!/usr/bin/env python3
"""Writes /verif/MANIFEST.json from the table below."""
import json, os
P, Q, N = "proved", "partial", "not_applicable"
CLAIMS = [
 ("C01", Q, ["C01_peek_is_invisible_partial", "C01_client_partial", "C01_without_inner_next", "C01_same_runs", "C01_inner_next_refuted"],
  "False for clients that call the public method inner_next, which passes a peeked event over. Proved for all clients that do not, and for all others if no peek is added right before inner_next."),
 ("C02", Q, ["C02_depth_counts_open_elements_partial", "C02_client_partial", "C02_inner_next_refuted"],
  "The count is proved for all histories of calls. That it never goes below zero is proved for histories without the public method inner_next, and false with it: inner_next does not count depth."),
 ("C03", P, ["C03_misc_events_invisible", "C03_derived", "C03_client_events"], ""),
 ("C04", Q, ["C04_skip_element_partial", "C04_skip_element_error", "C04_every_depth", "C04_inner_next_refuted"],
  "For start tags read by next_event. After a start tag read by inner_next the same events are passed on, but the depth ends lower by one, or the subtraction panics at the root."),
 ("C05", Q, ["C05_read_inner_value", "C05_client_closure", "C05_depth_restored_partial", "C05_depth_refuted"],
  "When Ok is returned and where the reader stands is proved for all closures. The depth is the original one exactly if the closure leaves the depth as it found it; one that reads the start tag of an inner element of the same name does not."),
 ("C06", P, ["C06_unread_input_irrelevant", "C06_client_input"], ""),
 ("C07", P, ["C07_integer_round_trip", "C07_integer_field_round_trip"], ""),
 ("C08", P, ["C08_integer_acceptance", "C08_integer_rejection", "C08_integer_field"], ""),
 ("C09", P, ["C09_bool_lexical", "C09_bool_written"], ""),
 ("C10", Q, ["C10_missing_field_partial", "C10_required_element_partial", "C10_required_attribute_partial", "C10_required_text_partial", "C10_required_attribute_flattened_partial", "C10_refuted"],
  "the full claim is false: a text inside an element of simple type can supply a text field. Proved on documents meeting Conforms; the required-field error for attributes when no flattened type looks for them, for text without flattened fields"),
 ("C11", Q, ["C11_child_order_partial", "C11_child_swaps_partial", "C11_refuted", "C11_text_refuted"],
  "all permutations that keep the order of the children handed to flattened fields, when no child is named like a text field or there is no text; false otherwise"),
 ("C12", Q, ["C12_collection_partial", "C12_refuted"],
  "on documents meeting Conforms only, and for the first of several fields with the same name; false in general: the content of elements of simple type is searched as well"),
 ("C13", Q, ["C13_unknown_element_partial", "C13_unknown_attribute_partial", "C13_anywhere_partial", "C13_refuted"],
  "on documents meeting Conforms, at any depth; with flattened fields, content that their types do not know either and that separates no texts; false after an element of simple type that holds an element"),
 ("C14", Q, ["C14_own_start_tag_partial", "C14_attribute_value_partial", "C14_refuted"],
  "holds on conforming documents; false in general (simple content holding elements shifts the depth counter)"),
 ("C15", Q, ["C15_root_name_partial", "C15_bad_namespace", "C15_flattened_partial", "C15_refuted"],
  "the full claim is false: a flattened enum sees the root element too. The namespace check is proved in general; the irrelevance of the root name on documents meeting Conforms"),
 ("C16", Q, ["C16_invalid_element_partial", "C16_invalid_attribute_partial", "C16_refuted"],
  "false in general: with a flattened field an unparseable element is an error. Proved: elements in structs without flattened fields on documents meeting Conforms; attributes of any type on any input, unless the element is named like a field"),
 ("C17", Q, ["C17_conforming_partial", "C17_calm_types_partial", "C17_root_partial", "C17_named_partial", "C17_flattened_partial", "C17_named_bound_partial", "C17_refuted", "C17_same_name_refuted", "C17_variant_text_refuted", "C17_shifted_refuted", "C17_flattened_refuted", "C17_fuel", "C17_fuel_more"],
  "false in general: a Book is read for ever from <author>X</author>; proved for conforming documents, for every text and types without elements of simple type, and for every text whose names do not get into each other's way (flattened types: if they are read to an end from every text with the struct's root name); four further documents without an end"),
 ("C18", Q, ["C18_no_panic_partial", "C18_panic_cause", "C18_events_partial", "C18_refuted"],
  "false in general: an enum variant with an integer payload panics on <Integer>abc</Integer>; proved to be the only kind of panic"),
 ("C19", Q, ["C19_consumes_element_partial", "C19_refuted"],
  "holds on conforming elements; false for an element named like a simple field of the struct"),
 ("C20", P, ["C20_typed_result", "C20_typed_result_events"], ""),
 ("C21", P, ["C21_well_nested", "C21_one_root", "C21_events", "C21_no_writer_error"], ""),
 ("C22", Q, ["C22_vec_field_partial", "C22_option_none", "C22_option_some_partial", "C22_struct_output_partial", "C22_refuted"],
  "false for items of a type that is flattened itself. Proved in every struct and serializer state for plain element fields (not attribute, text, cdata or flatten) of types written as an element; None writes nothing in general"),
 ("C23", Q, ["C23_element_partial", "C23_any_state_partial", "C23_attribute_partial", "C23_attribute_refuted", "C23_text_refuted", "C23_flatten_refuted"],
  "false for skip_serializing on attribute and text fields and for the attributes of flattened fields"),
 ("C24", Q, ["C24_errors_reported_partial", "C24_ok_means_written_partial", "C24_refuted"],
  "false for enum payloads Vec<i32>, Option<bool> and alike: their write errors are dropped"),
 ("C25", Q, ["C25_self_refuted", "C25_field_events_partial", "C25_attributes_partial", "C25_variant_fields", "C25_payload", "C25_prior_state"],
  "fields of structs and of struct-like variants, attributes and payloads, from any two states; a skip_serializing_if function sees the whole struct and has to answer alike; a flattened payload stands for the enum itself, whose element is chosen by the caller (C25_prior_state)"),
 ("C26", Q, ["C26_prefixed", "C26_matched", "C26_bare_partial", "C26_in_scope_partial", "C26_refuted"],
  "false for fields without prefix under a default namespace"),
 ("C27", Q, ["C27_events_partial", "C27_flatten_events_partial", "C27_refuted"],
  "for the supported class, and with flattened fields that do not get into each other's way; false when a recursive struct holds elements named like its own field"),
 ("C28", Q, ["C28_text_partial", "C28_flatten_text_partial", "C28_written", "C28_empty_refuted", "C28_space_refuted", "C28_option_refuted", "C28_tab_refuted", "C28_flatten_attribute_refuted", "C28_flatten_none_refuted", "C28_flatten_shared_refuted"],
  "for values with clean strings, with and without flattened fields; empty strings, outer white space, Some(\"\"), tabs in attributes and the attributes of optional flattened fields are lost"),
 ("C29", Q, ["C29_enum_field_partial", "C29_none_refuted", "C29_empty_refuted", "C29_struct_like_refuted", "C29_prefix_refuted", "C29_tagged_text_refuted", "C29_tagged_struct_refuted"],
  "unit and one-payload variants without tag (unit variants with a tag: C31); None and empty payloads, struct-like and prefixed variants and texts in tagged enums read as the default, structs in tagged enums are an error"),
 ("C30", Q, ["C30_default_partial", "C30_namespace", "C30_no_tag", "C30_own_name", "C30_refuted"],
  "false for an element whose own name is that of a variant; the namespace must match and the tag attribute be present"),
 ("C31", Q, ["C31_written", "C31_round_trip_partial", "C31_field_partial", "C31_refuted"], "false under a default namespace"),
 ("C32", Q, ["C32_written", "C32_text_partial", "C32_round_trip_partial", "C32_text_refuted", "C32_round_trip_refuted"],
  "markup characters are escaped twice; outer white space is lost"),
 ("C33", Q, ["C33_newtype_partial", "C33_integer", "C33_bool", "C33_hex_refuted", "C33_string_refuted"],
  "all integers and booleans; bit flags are written in hexadecimal and read in decimal"),
 ("C34", Q, ["C34_read_partial", "C34_attributes", "C34_content", "C34_struct_content", "C34_refuted"],
  "writing in general; reading on conforming documents, false when another field holds a unit variant, nothing, or an invalid text"),
 ("C35", Q, ["C35_structure_partial", "C35_element_partial", "C35_attribute_partial", "C35_control_refuted", "C35_cdata_refuted"],
  "for legal XML characters; control characters make the document unreadable, CDATA content can leave its section"),
 ("C36", Q, ["C36_cdata_partial", "C36_end_refuted", "C36_empty_refuted", "C36_space_refuted"],
  "for clean strings without the end mark of a CDATA section"),
 ("C37", Q, ["C37_indent_partial", "C37_events_partial", "C37_refuted", "C37_any_indent_refuted"], "all types and values as long as no name contains '<' or begins with '!'; false for a name that opens a CDATA section"),
 ("C38", Q, ["C38_local_name_partial", "C38_refuted"], "false: attribute fields match by local name only; what does hold is characterized"),
 ("C39", Q, ["C39_text_field_partial", "C39_refuted"], "the last text chunk is taken; false for text interrupted by elements"),
 ("C40", Q, ["C40_attribute_list_partial", "C40_written_refuted"], "reading proved; Vec attributes are never written"),
 ("C41", Q, ["C41_struct_partial", "C41_enum_partial", "C41_events_partial", "C41_reader_partial", "C41_refuted", "C41_newtype_refuted"],
  "all structs, and enums read as a variant with payload; false for unit variants and newtypes at the root"),
 ("C42", Q, ["C42_same_document_partial", "C42_alike_partial", "C42_events_partial", "C42_flattened_partial", "C42_refuted", "C42_rebound_refuted"],
  "false for attributes of the same local name in different namespaces; proved otherwise for types without flattened fields, on all texts; with flattened fields on conforming documents that give no prefix a new meaning, false if they do"),
 ("C43", Q, ["C43_injective_partial", "C43_refuted"],
  "for values of the supported class that survive the round trip; false in general as lists in attributes are not written"),
 ("C44", Q, ["C44_prelude_partial", "C44_total_partial", "C44_refuted", "C44_alias_refuted"],
  "in modules that neither redefine nor alias the names of the prelude; false in general as only the last segment of a path is looked at"),
 ("C45", Q, ["C45_deserialize_partial", "C45_serialize_partial", "C45_modelled_partial", "C45_primitive_partial", "C45_refuted"],
  "the accepted definitions are characterised exactly for both traits; false in general for struct-like variants, which the deserializer does not look at"),
 ("C46", Q, ["C46_distinct_partial", "C46_refuted", "C46_attribute_refuted"],
  "for names that stay different in camel case, without the prefix attribute; false in general"),
 ("C47", P, ["C47_unnamed_field", "C47_required_field"],
  "all event sources, all structs, all fields that are not flattened"),
 ("C48", Q, ["C48_stable_partial", "C48_survives_partial", "C48_tab_refuted", "C48_cdata_refuted", "C48_list_refuted", "C48_hex_refuted", "C48_payload_refuted"],
  "all texts, for a class of type definitions and values without tabs; false in general"),
 ("C49", Q, ["C49_content_partial", "C49_determined", "C49_flattened_refuted", "C49_namespace_refuted"],
  "for start tags without namespace declarations; false for variants with a flattened payload and for declared namespaces, which are declared again inside"),
 ("C50", P, ["C50_prefix", "C50_reads"], "all types, values and configurations"),
 ("C51", P, ["C51_cause", "C51_lenient"], "all types, all texts"),
 ("C52", Q, ["C52_reader_partial", "C52_text_partial", "C52_unclosed_partial", "C52_newtype_partial", "C52_refuted"],
  "for all structs and enums, all texts and readers; false for newtypes at the root, which are read as if their text were empty when it did not arrive"),
 ("C53", Q, ["C53_nested_partial", "C53_refuted"],
  "for elements that are read successfully alone, in all contexts; false as the namespace of a struct is checked at the root only"),
 ("C54", Q, ["C54_looser_partial", "C54_refuted"],
  "for definitions without fields that are both flattened and optional; false for those"),
 ("C55", Q, ["C55_spelling_partial", "C55_tree_partial", "C55_reads_partial", "C55_refuted", "C55_line_refuted", "C55_mark_refuted"], "all documents of the grammar in SpecXml.v, all types; false for document type declarations with > in a literal, for line ends with carriage returns and for byte order marks (xml-rs 0.8.3); missing: internal subsets, encodings other than UTF-8"),
 ("C56", Q, ["C56_written_partial", "C56_control_refuted", "C56_names_refuted"],
  "for types, flattened parts included, whose names are proper, bound and not repeated in one start tag, and texts without control characters and carriage returns; false for control characters, and for names that are improper, unbound or repeated, which are written as they are"),
 ("C57", Q, ["C57_rearranged_partial", "C57_flattened_partial", "C57_flattened_text_partial", "C57_refuted", "C57_flattened_option_refuted"],
  "for all reorderings without flattened options in which fields of the same name keep their order; new fields for types without flattened fields and without attributes of struct or payload types, all texts, and for all other types with different field names and documents that conform to the old definition; false for fields of the same name and for flattened options"),
 ("C58", Q, ["C58_inlined_partial", "C58_read_partial", "C58_default_namespace_refuted"],
  "for types with proper names that agree on prefixes, flattened structs with the default namespace of the struct around them, skip_serializing_if functions of the value, documents without control characters; false for a flattened struct with a default namespace of its own"),
 ("C59", Q, ["C59_spread_partial", "C59_two_texts_refuted", "C59_namespace_refuted"],
  "for documents that conform to both definitions, have at most one text per element, and no prefixes that change their meaning; false for several texts in one element, and for elements whose namespace the type of the flattened field does not accept"),
 ("C60", Q, ["C60_reading_partial", "C60_attribute_type_refuted"],
  "when the types of attribute fields keep their identifiers; false otherwise: an attribute value is read from an element named after the identifier of the type"),
 ("C61", P, ["C61_writing"], ""),
 ("C62", P, ["C62_events", "C62_text"], "all types, values and configurations; failing writers in C24"),
 ("C63", Q, ["C63_tree_partial", "C63_text_partial", "C63_nested_refuted"],
  "for elements that fit the types; false in general: inside of an element of simple type, elements of the struct are looked for"),
 ("C64", P, ["C64_reading", "C64_state", "C64_writing", "C64_text", "C64_unreached"], ""),
 ("C65", Q, ["C65_trimmed_partial", "C65_text_partial", "C65_written_partial", "C65_written_flatten_partial", "C65_nested_refuted", "C65_flattened_option_refuted"],
  "In full it is false: the new program finds elements inside the element of a simple field, which the old one skips, and a flattened Option becomes None when a new field of its type is missing.  Proved for documents that conform to the new definition, without flattened Options in the old one, and for everything the new program writes and can read back."),
 ("C66", Q, ["C66_trees_partial", "C66_text_partial", "C66_read_partial", "C66_read_flatten_partial", "C66_text_field_refuted", "C66_not_equal_refuted"],
  "In full it is false: an Option that is the text of its element is written as the empty text when it is None, and a default that is not equal to itself is not left out.  Proved for all other new fields; the default of a new attribute has to be a value that can be written."),
 ("C67", P, ["C67_definition", "C67_derived"], ""),
 ("C68", Q, ["C68_refuted", "C68_second_refuted", "C68_written_partial", "C68_order_partial"],
  "False: names that are no options are ignored, and so is a second #[yaserde(..)].  Proved: the options of the first attribute are taken exactly as written, in any order, or refused.  What serde_tokenstream makes of the tokens of one value is a parameter."),
 ("C69", P, ["C69_text", "C69_trees"], ""),
 ("C70", Q, ["C70_struct_partial", "C70_enum_partial", "C70_unit", "C70_tagged", "C70_newtype", "C70_nested_refuted", "C70_derived", "C70_all_derived", "C70_document", "C70_day", "C70_written", "C70_events", "C70_all_derived_writers"], "Reading is false in general, as in C63: inside of an element of simple type, elements of the struct are looked for.  Proved for elements whose simple fields hold at most one text, for enum elements with payloads, with a text, or with a tag attribute, and for newtypes. Writing is complete for hand-written serializers that pass write errors on (or when no write fails), in environments where derived code does too (reports_errors, see C24). Hand-written deserializers use peek, next_event and depth and what is built from them, not inner_next itself."),
 ("C71", Q, ["C71_document", "C71_struct_partial", "C71_alike", "C71_alone", "C71_silent", "C71_user", "C71_refuted", "C71_apart_refuted", "C71_errors_refuted"], "False: the elements are missing (only the bare texts are written), write errors are dropped, and a value alone is no document. Proved: what is written instead, for all types and values, and which structs of such fields are told apart."),
 ("C72", P, ["C72_check", "C72_read", "C72_write", "C72_content"], "Derived types. Serializing a user type into an attribute runs the check of to_string_content on its part; C72_content covers it."),
 ("C73", P, ["C73_chars", "C73_unicode", "C73_broken", "C73_read", "C73_continue"], ""),
 ("C74", Q, ["C74_refuted", "C74_element_partial", "C74_reports_partial", "C74_enough", "C74_arrives"], "False for flattened types with lists of numbers in a struct-like variant, whose write errors are dropped. Proved for all types with an element of their own, and for all types that report write errors; what arrives is proved for all types."),
 ("C75", Q, ["C75_refuted", "C75_leaf_partial", "C75_reset", "C75_in_turn", "C75_clean_partial"], "False: the name set for a field of user type stays behind, and the next value gets it. Proved for types without such parts, for values that leave nothing behind, and for all types if the flags are reset in front of each value. C75_in_turn says exactly what is written in all cases."),
 ("C76", P, ["C76_coherent"], ""),
 ("C77", Q, ["C77_in_turn_partial", "C77_text_partial", "C77_refuted"], "all types and elements; false for flattened types that miss the end of their element and read on to the end of the document"),
 ("C78", Q, ["C78_log_partial", "C78_round_partial", "C78_stops", "C78_declaration_refuted"], "configurations without declaration, types not flattened that write proper, bound and distinct names, no control characters or carriage returns; false with declarations: only the first text may have one"),
 ("C79", P, ["C79_declaration", "C79_doctype", "C79_markup"], "all documents of the grammar; what xml-rs refuses is as modelled in XmlText.v"),
]
out = {"claims": [dict(property=p, status=s, theorems=t, note=n) for p, s, t, n in CLAIMS]}
path = os.path.join(os.path.dirname(os.path.abspath(__file__)), "..", "MANIFEST.json")
with open(path, "w") as f:
    json.dump(out, f, indent=1); f.write("\n")
