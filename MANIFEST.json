{"claims": [
{"property": "C01", "status": "proved", "theorems": ["C01_show_visible", "C01_show_visible_int", "C01_show_visible_none", "C01_show_reading_unique", "C01_decimal_notation"], "note": ""},
{"property": "C02", "status": "proved", "theorems": ["C02_show_accepts", "C02_show_types"], "note": ""},
{"property": "C03", "status": "proved", "theorems": ["C03_show_min_steps", "C03_fragments", "C03_fragments_grow"], "note": ""},
{"property": "C04", "status": "proved", "theorems": ["C04_hierarchical_visibility", "C04_painted_once"], "note": ""},
{"property": "C05", "status": "proved", "theorems": ["C05_sorted", "C05_stable"], "note": ""},
{"property": "C06", "status": "proved", "theorems": ["C06_child_placement", "C06_bad_reference"], "note": ""},
{"property": "C07", "status": "partial", "theorems": ["C07_rejected_box_partial", "C07_rejected_box_refuted", "C07_rejected_fragment_refuted"], "note": "Refuted: with a bad show argument or bad references the layout of the rejected box stays (other boxes move), and the current fragment may grow. Proved: the boxes are unchanged, bad sizes and positions change nothing, otherwise exactly one layout was added."},
{"property": "C08", "status": "partial", "theorems": ["C08_size_grammar_partial", "C08_size_documented", "C08_size_strict_refuted", "C08_size_other", "C08_empty_string_refuted"], "note": "Accepted strings characterised exactly. The strict grammar is refuted: a final newline and extra ')' after fill(NN) are accepted, and box() takes '' as no size."},
{"property": "C09", "status": "partial", "theorems": ["C09_pos_grammar_partial", "C09_pos_strict_refuted", "C09_pos_meaning"], "note": "Accepted strings characterised exactly and their meaning proved. The strict grammar is refuted by a tolerated final newline."},
{"property": "C10", "status": "proved", "theorems": ["C10_fill_factors", "C10_fill_tiles"], "note": ""},
{"property": "C11", "status": "proved", "theorems": ["C11_stack_centred"], "note": ""},
{"property": "C12", "status": "partial", "theorems": ["C12_child_geometry_partial", "C12_horizontal_y_refuted"], "note": "Refuted for y given as percentage or alignment in a horizontal box (layout.py uses the width of the parent); proved for everything else."},
{"property": "C13", "status": "proved", "theorems": ["C13_min_sizes", "C13_demand", "C13_text_size", "C13_size_arguments", "C13_no_size"], "note": ""},
{"property": "C14", "status": "partial", "theorems": ["C14_fill_content_refuted", "C14_fill_content_partial", "C14_shares"], "note": "Refuted: fill ignores the content. Proved: the exact condition next to children of plain sizes (the share of the fill factor in what the plain children leave), so it holds for one fill child when the parent is large enough."},
{"property": "C15", "status": "proved", "theorems": ["C15_padding_resolution", "C15_content_area"], "note": ""},
{"property": "C16", "status": "proved", "theorems": ["C16_containment", "C16_root", "C16_added_order"], "note": ""},
{"property": "C17", "status": "proved", "theorems": ["C17_positioned_insertion", "C17_overlay_args", "C17_overlay_covers"], "note": ""},
{"property": "C18", "status": "proved", "theorems": ["C18_translation"], "note": ""},
{"property": "C19", "status": "proved", "theorems": ["C19_lazy_final", "C19_forward_reference_raises", "C19_points", "C19_add"], "note": ""},
{"property": "C20", "status": "partial", "theorems": ["C20_render_twice_partial", "C20_scaled_text_refuted", "C20_scaled_text"], "note": "Proved for boxes, for texts that are not scaled and for the room of scaled texts, if no inline box is made from a scaled text. Refuted for the scale of scale_to_fit texts: it is exactly 1 in the second render (C20_scaled_text)."},
{"property": "C21", "status": "proved", "theorems": ["C21_scale_to_fit"], "note": ""},
{"property": "C22", "status": "partial", "theorems": ["C22_centred", "C22_fits", "C22_degenerate", "C22_larger_refuted", "C22_request", "C22_ratio_partial", "C22_padding_refuted"], "note": "Place, scale and request proved. Refuted: in a box with one side 0 (for instance width '50%' and nothing else) the image is larger than the box; with padding the inner area asked for does not have the ratio of the image."},
{"property": "C23", "status": "proved", "theorems": ["C23_plain_text"], "note": ""},
{"property": "C24", "status": "proved", "theorems": ["C24_inline_styles"], "note": ""},
{"property": "C25", "status": "proved", "theorems": ["C25_delimiters", "C25_written_back", "C25_parsed_is_balanced", "C25_rejected"], "note": ""},
{"property": "C26", "status": "partial", "theorems": ["C26_doubled_escape_refuted", "C26_doubled_escape_lost_refuted"], "note": "Refuted: there is no such case in the parser. A doubled escape character is always rejected or swallowed with the following style name."},
{"property": "C27", "status": "proved", "theorems": ["C27_extract_line"], "note": ""},
{"property": "C28", "status": "proved", "theorems": ["C28_line_numbers"], "note": ""},
{"property": "C29", "status": "proved", "theorems": ["C29_merge_keeps_text"], "note": ""},
{"property": "C30", "status": "partial", "theorems": ["C30_block_end", "C30_order_partial", "C30_order_refuted", "C30_merge_styles_partial", "C30_merge_styles_refuted"], "note": "Refuted for nested styles (blocks are reopened in the wrong order); proved if no list has nested blocks, and then also which block is outside (earlier begin, longer block, second list), unless there are empty blocks (refuted)."},
{"property": "C31", "status": "partial", "theorems": ["C31_trim_indent_partial", "C31_trim_indent_raises", "C31_idempotent_refuted"], "note": "Everything proved but idempotence, which is refuted if the last line becomes empty and proved otherwise."},
{"property": "C32", "status": "partial", "theorems": ["C32_highlight", "C32_code_partial", "C32_code_plain", "C32_code_refuted", "C32_leading_newlines_refuted"], "note": "Proved for all documents whose shown text neither starts nor ends with a newline inside the styled part (and styles for documents without nested styles). Refuted: a style starting with a newline, or an empty style after the last newline, makes code() fail; without use_styles leading newlines stripped by the lexer are lost."},
{"property": "C33", "status": "proved", "theorems": ["C33_line_box", "C33_lines_tile", "C33_drawn_lines", "C33_aligned", "C33_bad_alignment", "C33_line_box_call"], "note": ""},
{"property": "C34", "status": "proved", "theorems": ["C34_occurrence", "C34_inline_box", "C34_inline_box_call"], "note": ""},
{"property": "C35", "status": "partial", "theorems": ["C35_byte_range_partial", "C35_nested_range", "C35_nested_refuted", "C35_extents", "C35_empty_refuted", "C35_utf8"], "note": "Proved for styles not inside another style; inside other styles the measured range reaches to the end of the outermost one (closed form proved, refuted as stated). A style without text raises."},
{"property": "C36", "status": "partial", "theorems": ["C36_compose", "C36_update", "C36_associative", "C36_left_identity", "C36_right_identity_partial", "C36_right_identity_refuted"], "note": "Composition, associativity and left identity proved. Right identity refuted for styles with a priority: every style specifies a priority (0), so composing with the empty style resets it."},
{"property": "C37", "status": "proved", "theorems": ["C37_scoping", "C37_set_style", "C37_has_style", "C37_update_style", "C37_new_box", "C37_text_keeps_styles"], "note": ""},
{"property": "C38", "status": "partial", "theorems": ["C38_private_partial", "C38_get_style_fresh", "C38_private_refuted", "C38_update_style_refuted"], "note": "Proved for all containers reached by get_style, new styles and text; set_style and update_style share or change the style object that other boxes see (refuted)."},
{"property": "C39", "status": "partial", "theorems": ["C39_partial", "C39_read_back_partial", "C39_refuted", "C39_svg_refused", "C39_cairo_refused", "C39_svg_elements"], "note": "Proved for texts without line breaks inside styles without effect (read back exactly). A line break inside a '#' place or a style of lower priority makes draw_text raise (refuted). For all texts: only escaped text and tspan elements with the strings of the text in order."},
{"property": "C40", "status": "partial", "theorems": ["C40_cairo", "C40_svg_partial", "C40_svg_refuted"], "note": "Cairo proved in full. SVG proved for texts where the priority falls back to the same value when a style is closed inside one without effect; otherwise refuted (the priority is not restored)."},
{"property": "C41", "status": "partial", "theorems": ["C41_text_partial", "C41_exact", "C41_no_markup", "C41_refuted"], "note": "Proved exactly: a text is read back iff it has only characters XML allows (carriage returns are read as line feeds, spaces become no-break spaces by design). Refuted for control characters, which are written as they are."},
{"property": "C42", "status": "partial", "theorems": ["C42_value_partial", "C42_exact", "C42_refuted"], "note": "Exact characterisation of the values that survive; refuted for quotes (not escaped), tabs and newlines (normalised by readers)."},
{"property": "C43", "status": "proved", "theorems": ["C43_nested", "C43_attributes_in_start_tags"], "note": ""},
{"property": "C44", "status": "proved", "theorems": ["C44_rejected", "C44_names", "C44_unique", "C44_replace", "C44_ignore", "C44_accepts", "C44_view_box", "C44_decorator"], "note": ""},
{"property": "C45", "status": "partial", "theorems": ["C45_indices_partial", "C45_replace_refuted", "C45_pdf_refuted", "C45_named_exact"], "note": "Proved under ignore and unique (the index is the position). Refuted under replace (indices collide), and a PDF before makes named slides impossible under unique and replace (exact condition proved)."},
{"property": "C46", "status": "proved", "theorems": ["C46_pages", "C46_empty", "C46_pdf_only"], "note": ""},
{"property": "C47", "status": "partial", "theorems": ["C47_grid_partial", "C47_cells", "C47_edge_cases", "C47_pdf_order_refuted", "C47_mixed", "C47_pdf_too_early", "C47_render"], "note": "Proved by reading the pages back, for whole renders with slides and PDFs: every slide once, in order, in pieces; cells distinct and inside; every PDF once, in order, and after exactly which pages. Refuted with PDFs: a PDF always comes before some of the slides that precede it (C47_pdf_too_early)."},
{"property": "C48", "status": "proved", "theorems": ["C48_transparent", "C48_versions", "C48_methods", "C48_measures"], "note": ""},
{"property": "C49", "status": "partial", "theorems": ["C49_kept_partial", "C49_render_twice_refuted", "C49_save_only"], "note": "Proved for one render per run (exactly the measurements of the run are kept). Refuted for two renders: the second prune forgets all."},
{"property": "C50", "status": "partial", "theorems": ["C50_ensure_partial", "C50_get_partial", "C50_get_exact", "C50_get_refuted", "C50_after_prune_refuted", "C50_no_wait_refuted", "C50_names"], "note": "Proved over all histories of sessions, failures and prunes, up to entries that a prune of the same deck removed (for those refuted: the path of a missing file is returned). get() returns carriage returns translated the second time (refuted, exact without them)."},
{"property": "C51", "status": "partial", "theorems": ["C51_exact", "C51_keeps_used", "C51_twice_refuted"], "note": "First prune exact and successful; used files are never removed. Refuted: once something was removed, every later prune of the deck raises."},
{"property": "C52", "status": "partial", "theorems": ["C52_complete_partial", "C52_finite_partial", "C52_separate_partial", "C52_twice_refuted", "C52_being_written_refuted", "C52_blocked_refuted", "C52_failure_blocks_refuted"], "note": "All interleavings: returned entries were completed by some thread; executions are finite; threads with different entries build at most once and never block. Refuted for the same entry: built twice, KeyError, returned while being written, blocked for ever."},
{"property": "C53", "status": "partial", "theorems": ["C53_killed_refuted", "C53_get_refuted", "C53_between_partial"], "note": "Proved for crashes outside of writing; refuted inside (the partial file is taken for the entry)."},
{"property": "C54", "status": "partial", "theorems": ["C54_prompt", "C54_no_prompt", "C54_command", "C54_conversation", "C54_ended_refuted", "C54_ended_partial"], "note": "Proved for all streams and conversations; refuted if the process ends before printing a prompt (endless loop)."},
{"property": "C55", "status": "partial", "theorems": ["C55_fragment", "C55_keeps", "C55_order", "C55_unique", "C55_steps", "C55_accepts", "C55_total", "C55_text_refuted"], "note": "Elements, order, nesting, attributes, number of fragments and the unchanged source proved. Refuted for the text of kept elements: text that follows an excluded element is lost with it."},
{"property": "C56", "status": "partial", "theorems": ["C56_not_before", "C56_select", "C56_all_fragments_partial", "C56_whole", "C56_one_fragment_partial", "C56_one_fragment_refuted", "C56_pages"], "note": "Proved, except without selection for an image of one fragment, which is drawn unchanged: an element labelled '1' stays on later pages (refuted; proved when nothing is excluded)."},
{"property": "C57", "status": "partial", "theorems": ["C57_ids", "C57_references_partial", "C57_other_attributes", "C57_resolves_partial", "C57_disjoint", "C57_two_references_refuted", "C57_prefix_refuted"], "note": "Ids proved. References proved for attributes that refer to one id of which no other id is a prefix; refuted for two references in an attribute and for ids that are prefixes of others."},
{"property": "C58", "status": "partial", "theorems": ["C58_units_partial", "C58_inch_refuted", "C58_exact_refuted"], "note": "px and no unit exact; mm, cm and pt with rounded constants (relative error below 3e-6 proved, exactness refuted); inches are taken as pixels (refuted)."},
{"property": "C59", "status": "proved", "theorems": ["C59_quadratic", "C59_drawn"], "note": ""},
{"property": "C60", "status": "partial", "theorems": ["C60_path_partial", "C60_double_S_refuted", "C60_groups_refuted", "C60_no_points_refuted", "C60_no_start_refuted"], "note": "Proved for paths whose commands have exactly one group of arguments and no S that follows an S. Refuted: S after S reflects the wrong control point, further groups of a command are ignored, a command without points raises, and a path that starts with Q is drawn by Cairo only, from a wrong point."},
{"property": "C61", "status": "partial", "theorems": ["C61_resize_partial", "C61_resize_refuted", "C61_wings", "C61_degrees", "C61_inner", "C61_end_point", "C61_line"], "note": "Resizing proved unless it shortens by more than the length (then the segment turns around, refuted; segments without length raise). Wings, inner point and line ends proved for all segments of positive length."},
{"property": "C62", "status": "partial", "theorems": ["C62_numbering_partial", "C62_labels", "C62_isolated", "C62_arabic_text", "C62_distinct_labels", "C62_failed_item_refuted", "C62_label_refuted"], "note": "Proved for all histories of lists whose label functions leave the counters alone and whose item calls succeed. Refuted: an item() call that raises has used a number; a label function can change the counters."},
{"property": "C63", "status": "partial", "theorems": ["C63_list_box", "C63_item_box", "C63_box_indent_partial", "C63_indent_refuted"], "note": "The box of a sublist is indented as specified relative to an item of the parent list (proved). Refuted for its items: item() indents by the total of all levels again; closed form of the resulting position proved for all nestings."},
{"property": "C64", "status": "proved", "theorems": ["C64_navigation", "C64_single", "C64_all_panels"], "note": ""},
{"property": "C65", "status": "partial", "theorems": ["C65_styles_partial", "C65_code_span_refuted", "C65_brace_refuted", "C65_escape_refuted", "C65_delimiters_refuted"], "note": "Proved for emphasis, strong, links and line breaks with a one-character escape character that does not occur in the texts, without closing braces in styled texts. Refuted: code spans and other nodes are dropped; a closing brace in a styled text ends the style; the escape character in a text raises; an escape_char of three characters is not understood."},
{"property": "C66", "status": "partial", "theorems": ["C66_layers", "C66_written", "C66_unique", "C66_defaults_refuted", "C66_apostrophe_refuted"], "note": "Proved for all layer trees. Refuted for attributes left to their OpenRaster defaults (layers dropped or an exception) and for layer names with an apostrophe (the file cannot be read)."},
{"property": "C67", "status": "proved", "theorems": ["C67_layout_mirrors_boxes", "C67_unique_layouts"], "note": ""},
{"property": "C68", "status": "proved", "theorems": ["C68_calls_keep_boxes"], "note": ""},
{"property": "C69", "status": "partial", "theorems": ["C69_same_partial", "C69_bold_refuted", "C69_hash_refuted", "C69_opacity_refuted"], "note": "Proved for regular texts with styles that do not switch bold or italic off. Refuted: bold=False inside bold, styles named '#...', opacity (ignored by Cairo)."},
{"property": "C70", "status": "proved", "theorems": ["C70_styles_valid", "C70_constructor", "C70_assignment"], "note": ""},
{"property": "C71", "status": "partial", "theorems": ["C71_line_width_partial", "C71_line_width_refuted"], "note": "Proved in vertical boxes. In a horizontal box the line box gets the fill unit, 0 without fill children (refuted)."},
{"property": "C72", "status": "partial", "theorems": ["C72_read_back_partial", "C72_duplicate_refuted"], "note": "Proved if no attribute is set twice on an element; setting one twice makes the output ill-formed (refuted)."},
{"property": "C73", "status": "partial", "theorems": ["C73_policies", "C73_documented_partial", "C73_auto_refuted"], "note": "Proved for all arguments but auto outside notebooks, which gives ignore (refuted)."},
{"property": "C74", "status": "partial", "theorems": ["C74_files_partial", "C74_queries_refuted"], "note": "Proved for files; refuted for text measurements, which are pruned before anything is rendered."},
{"property": "C75", "status": "partial", "theorems": ["C75_query_partial", "C75_open_refuted", "C75_export", "C75_exported", "C75_export_ended", "C75_export_commands"], "note": "Proved for successful measurements and exports, and exports that leave no file; a measurement that fails leaves the document open (refuted)."},
{"property": "C76", "status": "partial", "theorems": ["C76_killed_refuted", "C76_start_partial"], "note": "Proved if no process is killed while saving; otherwise every later start raises (refuted)."},
{"property": "C77", "status": "partial", "theorems": ["C77_hangs_refuted", "C77_get"], "note": "get() retries (proved); ensure() waits for ever (refuted)."},
{"property": "C78", "status": "proved", "theorems": ["C78_image_type"], "note": ""},
{"property": "C79", "status": "partial", "theorems": ["C79_same_partial", "C79_total", "C79_polygon_refuted", "C79_dash_comma_refuted"], "note": "Proved for rectangles without rounded corners, ellipses, polygons, polylines and paths as in C60, with dashes separated by spaces. Polygons are traced alike (same points, same rotation), but Cairo does not close the outline (refuted); dashes with commas raise (refuted); rounded corners: see C82."},
{"property": "C80", "status": "partial", "theorems": ["C80_mixed_partial", "C80_sequence_partial", "C80_ellipse_dash_refuted", "C80_text_refuted"], "note": "Proved for all sequences of shapes, texts, bitmaps and SVG images whose ellipses have no dashes and do not come between a text or a bitmap and the next shape that is shown (C80_mixed_partial). Refuted: the dashes of an ellipse stay for later shapes; after a text the outline of a stroked ellipse begins with a line from the text."},
{"property": "C81", "status": "proved", "theorems": ["C81_viewbox"], "note": ""},
{"property": "C82", "status": "partial", "theorems": ["C82_rounded_partial", "C82_corner_refuted", "C82_radii_partial", "C82_zero_radius_refuted"], "note": "Sides, end points, clamping, radii and two corners (within 0.06% of the arc) proved. Refuted for the other two corners (more than 5% off) and if one radius is 0 (SVG rounds, Cairo does not)."},
{"property": "C83", "status": "partial", "theorems": ["C83_direction_partial", "C83_direction_T_refuted", "C83_line_end_rejected"], "note": "Proved for paths that end with C, S or Q. Refuted for T (direction of the chord); L is rejected."},
{"property": "C84", "status": "proved", "theorems": ["C84_item_show", "C84_sublist_show"], "note": ""},
{"property": "C85", "status": "partial", "theorems": ["C85_order_partial", "C85_document_order_partial", "C85_document_order_refuted", "C85_start_zero_refuted", "C85_refused"], "note": "For all accepted documents: everything once, in document order except that sublists come after everything else of their item; so document order when sublists end their items. Refuted: a paragraph after a sublist is placed before it; a nested ordered list that starts at 0 raises. Which documents are refused: C85_refused. Blocks of other kinds are ignored with a warning."},
{"property": "C86", "status": "partial", "theorems": ["C86_fragments_partial", "C86_together_partial", "C86_together_refuted"], "note": "Exact fragments proved: outside of lists always, in lists from the last fragment at the call on; all together on slides with one fragment so far. Refuted on slides with more."},
{"property": "C87", "status": "proved", "theorems": ["C87_labels"], "note": ""},
{"property": "C88", "status": "partial", "theorems": ["C88_bitmap", "C88_svg_partial", "C88_viewbox_refuted", "C88_zero_refuted"], "note": "Bitmaps: proved for all positive scales and all contexts. SVG and ORA images: proved on SVG, and with Cairo on slides without a view box; refuted with one (the image ignores it). Scale 0: bitmaps raise with Cairo, SVG images get their own size (refuted)."},
{"property": "C89", "status": "partial", "theorems": ["C89_latex_partial", "C89_cairo_refuted"], "note": "Proved on SVG for all boxes; with Cairo if the box has exactly the size of the picture. Refuted with Cairo in larger boxes: the picture is stretched to the size of the box and not centred."},
{"property": "C90", "status": "partial", "theorems": ["C90_anchor", "C90_lines_partial", "C90_scaled_lines_partial", "C90_scaled_lines_refuted"], "note": "Anchor, glyph scale and rotation proved for all texts and contexts. The distance of lines is proved for texts that are not scaled on slides without a view box; refuted for scaled texts (exact condition proved). Pango's layout is a stated assumption."},
{"property": "C91", "status": "partial", "theorems": ["C91_document", "C91_page_partial", "C91_refuted", "C91_order_partial"], "note": "Proved that a page is readable and is the sum of its items whenever each item is readable alone; proved that items with texts and values that XML can represent (texts as in C39_partial) are readable and show what was asked for, for all reachable slides and steps. Refuted for texts with control characters."},
{"property": "C92", "status": "partial", "theorems": ["C92_mixed_partial", "C92_backends_partial"], "note": "Proved for all pages of shapes, texts, bitmaps and SVG images as in C91_page_partial, with ellipses as in C80_mixed_partial (C80_text_refuted shows where the backends differ otherwise). What texts and pictures look like inside is C39, C88 and C90."},
{"property": "C93", "status": "proved", "theorems": ["C93_arguments", "C93_overlay", "C93_sbox", "C93_lists", "C93_fbox"], "note": ""},
{"property": "C94", "status": "partial", "theorems": ["C94_same_items", "C94_frames", "C94_above", "C94_document", "C94_frame_partial"], "note": "Proved for all reachable slides that the items are unchanged, which frames there are and where they are in the order, and that the SVG document only gets more elements; what a frame shows is proved for names, numbers and styles that can be written to XML (C94_frame_partial)."},
{"property": "C95", "status": "partial", "theorems": ["C95_line", "C95_line_cairo", "C95_path_partial", "C95_path_cairo"], "note": "Proved for all lines whose end segments have a length, and for paths that end with C, S or Q (the other cases: C83 and C61_resize_refuted). Lengths are real numbers."},
{"property": "C96", "status": "proved", "theorems": ["C96_whole_slide", "C96_requests", "C96_text_room", "C96_image_room", "C96_scaled"], "note": ""},
{"property": "C97", "status": "partial", "theorems": ["C97_measured_partial", "C97_block_partial", "C97_newline_refuted", "C97_inline", "C97_as_drawn_partial"], "note": "Proved for texts as in C40_svg_partial (the conditions are in `measurable`), for every block. Refuted: of a block with a line break inside only the first line is measured. What Inkscape answers is a function of the document (C53)."},
{"property": "C98", "status": "partial", "theorems": ["C98_measured_partial", "C98_inline_box_partial", "C98_sides_partial", "C98_spacing_exact", "C98_spacing_refuted", "C98_single_line"], "note": "Proved for all blocks with text that are not inside of another block (C35_nested_refuted) and have no line break, for texts with known and valid styles drawn without rotation. Pango is a parameter (positions of the characters of a line); assumed is that the scale attribute scales positions and widths (`scales`)."},
{"property": "C99", "status": "partial", "theorems": ["C99_deck_styles", "C99_ordinary", "C99_code", "C99_svg_partial", "C99_cairo", "C99_line_numbers", "C99_number_looks_refuted", "C99_priority_refuted", "C99_unknown_type"], "note": "Proved for code without inline styles (with and without line numbers) when the style of the text has no priority above 0; SVG as in C40_svg_partial. Refuted: with a higher priority nothing is highlighted (and tokens of several lines cannot be drawn); line numbers inside of a token of several lines take its weight and slant. Inline styles: C32_code_partial with C99_ordinary."},
{"property": "C100", "status": "partial", "theorems": ["C100_document", "C100_no_output", "C100_pptx_partial", "C100_pptx_refused", "C100_fragments", "C100_displayed", "C100_cairo_svg_refuted", "C100_pptx_ratio_refuted", "C100_pptx_ratio_exact", "C100_grid"], "note": "Documents proved with and without grids, presentations without. Assumed in the statement: the programs that make PDFs write one page with the drawing; pdfunite and the PDF library join the pages of their inputs. Refuted: pictures in presentations keep the ratio only if the deck has that of the template; Cairo cannot display slides as SVG."},
{"property": "C101", "status": "partial", "theorems": ["C101_value", "C101_points", "C101_add", "C101_mid_point", "C101_rect", "C101_ellipse", "C101_polygon", "C101_line", "C101_path", "C101_accepted", "C101_rejected", "C101_empty_path", "C101_none_refuted", "C101_around_refuted", "C101_page_partial", "C101_rect_page_partial"], "note": "Points and shapes proved for all call sequences; on pages under the hypotheses of C91 (drawings that SVG can represent). Refuted: a coordinate None is accepted but cannot be drawn; rect() is inside of the box if it has a padding (documented as around the box)."},
{"property": "C102", "status": "partial", "theorems": ["C102_text", "C102_text_inside", "C102_scaled_inside", "C102_bitmap", "C102_svg", "C102_length", "C102_image_room", "C102_items", "C102_given_size_refuted", "C102_page_partial", "C102_both_partial"], "note": "Proved for all call sequences for the drawings of items; on pages under the hypotheses of C91/C92 (drawings that SVG can represent). Measuring texts by Inkscape, serialising XML and parsing floats are arbitrary functions. Refuted: a box for which both sizes are given keeps them; an image can enlarge it."},
{"property": "C103", "status": "partial", "theorems": ["C103_looks", "C103_default", "C103_built_in", "C103_same_texts", "C103_quotes_refuted"], "note": "Proved for all documents whose headings have levels 1 to 6 and whose ordered sublists start with 1 or more (others raise, C85), on slides that have the styles default and code. Refuted: a list in a quote in a list item belongs to the list outside of the quote and is not grey. Inline styles of texts are C39 and C65; texts that cannot be parsed are C85."},
{"property": "C104", "status": "proved", "theorems": ["C104_drawn", "C104_refused", "C104_text", "C104_place", "C104_room"], "note": ""}
]}
