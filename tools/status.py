STATUS.update({
"C07": ("partial", "Refuted: with a bad show argument or bad references the layout of the rejected box stays (other boxes move), and the current fragment may grow. Proved: the boxes are unchanged, bad sizes and positions change nothing, otherwise exactly one layout was added."),
"C08": ("partial", "Accepted strings characterised exactly. The strict grammar is refuted: a final newline and extra ')' after fill(NN) are accepted, and box() takes '' as no size."),
"C09": ("partial", "Accepted strings characterised exactly and their meaning proved. The strict grammar is refuted by a tolerated final newline."),
"C12": ("partial", "Refuted for y given as percentage or alignment in a horizontal box (layout.py uses the width of the parent); proved for everything else."),
"C14": ("partial", "Refuted: fill ignores the content. Proved: the exact condition next to children of plain sizes (the share of the fill factor in what the plain children leave), so it holds for one fill child when the parent is large enough."),
"C20": ("partial", "Proved for boxes, for texts that are not scaled and for the room of scaled texts, if no inline box is made from a scaled text. Refuted for the scale of scale_to_fit texts: it is exactly 1 in the second render (C20_scaled_text)."),
})
STATUS.update({
"C26": ("partial", "Refuted: there is no such case in the parser. A doubled escape character is always rejected or swallowed with the following style name."),
"C30": ("partial", "Refuted for nested styles (blocks are reopened in the wrong order); proved if no list has nested blocks, and then also which block is outside (earlier begin, longer block, second list), unless there are empty blocks (refuted)."),
"C31": ("partial", "Everything proved but idempotence, which is refuted if the last line becomes empty and proved otherwise."),
"C32": ("partial", "Proved for all documents whose shown text neither starts nor ends with a newline inside the styled part (and styles for documents without nested styles). Refuted: a style starting with a newline, or an empty style after the last newline, makes code() fail; without use_styles leading newlines stripped by the lexer are lost."),
})
STATUS.update({
"C35": ("partial", "Proved for styles not inside another style; inside other styles the measured range reaches to the end of the outermost one (closed form proved, refuted as stated). A style without text raises."),
"C36": ("partial", "Composition, associativity and left identity proved. Right identity refuted for styles with a priority: every style specifies a priority (0), so composing with the empty style resets it."),
"C38": ("partial", "Proved for all containers reached by get_style, new styles and text; set_style and update_style share or change the style object that other boxes see (refuted)."),
"C71": ("partial", "Proved in vertical boxes. In a horizontal box the line box gets the fill unit, 0 without fill children (refuted)."),
})
STATUS.update({
"C41": ("partial", "Proved exactly: a text is read back iff it has only characters XML allows (carriage returns are read as line feeds, spaces become no-break spaces by design). Refuted for control characters, which are written as they are."),
"C42": ("partial", "Exact characterisation of the values that survive; refuted for quotes (not escaped), tabs and newlines (normalised by readers)."),
"C72": ("partial", "Proved if no attribute is set twice on an element; setting one twice makes the output ill-formed (refuted)."),
})
STATUS.update({
"C39": ("partial", "Proved for texts without line breaks inside styles without effect (read back exactly). A line break inside a '#' place or a style of lower priority makes draw_text raise (refuted). For all texts: only escaped text and tspan elements with the strings of the text in order."),
"C40": ("partial", "Cairo proved in full. SVG proved for texts where the priority falls back to the same value when a style is closed inside one without effect; otherwise refuted (the priority is not restored)."),
"C69": ("partial", "Proved for regular texts with styles that do not switch bold or italic off. Refuted: bold=False inside bold, styles named '#...', opacity (ignored by Cairo)."),
})
STATUS.update({
"C45": ("partial", "Proved under ignore and unique (the index is the position). Refuted under replace (indices collide), and a PDF before makes named slides impossible under unique and replace (exact condition proved)."),
"C47": ("partial", "Proved by reading the pages back, for whole renders with slides and PDFs: every slide once, in order, in pieces; cells distinct and inside; every PDF once, in order, and after exactly which pages. Refuted with PDFs: a PDF always comes before some of the slides that precede it (C47_pdf_too_early)."),
"C73": ("partial", "Proved for all arguments but auto outside notebooks, which gives ignore (refuted)."),
"C74": ("partial", "Proved for files; refuted for text measurements, which are pruned before anything is rendered."),
})
STATUS.update({
"C49": ("partial", "Proved for one render per run (exactly the measurements of the run are kept). Refuted for two renders: the second prune forgets all."),
"C50": ("partial", "Proved over all histories of sessions, failures and prunes, up to entries that a prune of the same deck removed (for those refuted: the path of a missing file is returned). get() returns carriage returns translated the second time (refuted, exact without them)."),
"C51": ("partial", "First prune exact and successful; used files are never removed. Refuted: once something was removed, every later prune of the deck raises."),
"C52": ("partial", "All interleavings: returned entries were completed by some thread; executions are finite; threads with different entries build at most once and never block. Refuted for the same entry: built twice, KeyError, returned while being written, blocked for ever."),
"C53": ("partial", "Proved for crashes outside of writing; refuted inside (the partial file is taken for the entry)."),
"C54": ("partial", "Proved for all streams and conversations; refuted if the process ends before printing a prompt (endless loop)."),
"C75": ("partial", "Proved for successful measurements and exports, and exports that leave no file; a measurement that fails leaves the document open (refuted)."),
"C76": ("partial", "Proved if no process is killed while saving; otherwise every later start raises (refuted)."),
"C77": ("partial", "get() retries (proved); ensure() waits for ever (refuted)."),
})
STATUS.update({
"C22": ("partial", "Place, scale and request proved. Refuted: in a box with one side 0 (for instance width '50%' and nothing else) the image is larger than the box; with padding the inner area asked for does not have the ratio of the image."),
"C55": ("partial", "Elements, order, nesting, attributes, number of fragments and the unchanged source proved. Refuted for the text of kept elements: text that follows an excluded element is lost with it."),
"C56": ("partial", "Proved, except without selection for an image of one fragment, which is drawn unchanged: an element labelled '1' stays on later pages (refuted; proved when nothing is excluded)."),
"C57": ("partial", "Ids proved. References proved for attributes that refer to one id of which no other id is a prefix; refuted for two references in an attribute and for ids that are prefixes of others."),
"C58": ("partial", "px and no unit exact; mm, cm and pt with rounded constants (relative error below 3e-6 proved, exactness refuted); inches are taken as pixels (refuted)."),
"C66": ("partial", "Proved for all layer trees. Refuted for attributes left to their OpenRaster defaults (layers dropped or an exception) and for layer names with an apostrophe (the file cannot be read)."),
})
STATUS.update({
"C60": ("partial", "Proved for paths whose commands have exactly one group of arguments and no S that follows an S. Refuted: S after S reflects the wrong control point, further groups of a command are ignored, a command without points raises, and a path that starts with Q is drawn by Cairo only, from a wrong point."),
"C61": ("partial", "Resizing proved unless it shortens by more than the length (then the segment turns around, refuted; segments without length raise). Wings, inner point and line ends proved for all segments of positive length."),
"C79": ("partial", "Proved for rectangles without rounded corners, ellipses, polygons, polylines and paths as in C60, with dashes separated by spaces. Polygons are traced alike (same points, same rotation), but Cairo does not close the outline (refuted); dashes with commas raise (refuted); rounded corners: see C82."),
"C80": ("partial", "Proved for all sequences of shapes, texts, bitmaps and SVG images whose ellipses have no dashes and do not come between a text or a bitmap and the next shape that is shown (C80_mixed_partial). Refuted: the dashes of an ellipse stay for later shapes; after a text the outline of a stroked ellipse begins with a line from the text."),
"C82": ("partial", "Sides, end points, clamping, radii and two corners (within 0.06% of the arc) proved. Refuted for the other two corners (more than 5% off) and if one radius is 0 (SVG rounds, Cairo does not)."),
"C83": ("partial", "Proved for paths that end with C, S or Q. Refuted for T (direction of the chord); L is rejected."),
})
STATUS.update({
"C62": ("partial", "Proved for all histories of lists whose label functions leave the counters alone and whose item calls succeed. Refuted: an item() call that raises has used a number; a label function can change the counters."),
"C63": ("partial", "The box of a sublist is indented as specified relative to an item of the parent list (proved). Refuted for its items: item() indents by the total of all levels again; closed form of the resulting position proved for all nestings."),
})
STATUS.update({
"C65": ("partial", "Proved for emphasis, strong, links and line breaks with a one-character escape character that does not occur in the texts, without closing braces in styled texts. Refuted: code spans and other nodes are dropped; a closing brace in a styled text ends the style; the escape character in a text raises; an escape_char of three characters is not understood."),
"C85": ("partial", "For all accepted documents: everything once, in document order except that sublists come after everything else of their item; so document order when sublists end their items. Refuted: a paragraph after a sublist is placed before it; a nested ordered list that starts at 0 raises. Which documents are refused: C85_refused. Blocks of other kinds are ignored with a warning."),
"C86": ("partial", "Exact fragments proved: outside of lists always, in lists from the last fragment at the call on; all together on slides with one fragment so far. Refuted on slides with more."),
})
STATUS.update({
"C88": ("partial", "Bitmaps: proved for all positive scales and all contexts. SVG and ORA images: proved on SVG, and with Cairo on slides without a view box; refuted with one (the image ignores it). Scale 0: bitmaps raise with Cairo, SVG images get their own size (refuted)."),
"C89": ("partial", "Proved on SVG for all boxes; with Cairo if the box has exactly the size of the picture. Refuted with Cairo in larger boxes: the picture is stretched to the size of the box and not centred."),
"C90": ("partial", "Anchor, glyph scale and rotation proved for all texts and contexts. The distance of lines is proved for texts that are not scaled on slides without a view box; refuted for scaled texts (exact condition proved). Pango's layout is a stated assumption."),
})
STATUS.update({
"C91": ("partial", "Proved that a page is readable and is the sum of its items whenever each item is readable alone; proved that items with texts and values that XML can represent (texts as in C39_partial) are readable and show what was asked for, for all reachable slides and steps. Refuted for texts with control characters."),
"C94": ("partial", "Proved for all reachable slides that the items are unchanged, which frames there are and where they are in the order, and that the SVG document only gets more elements; what a frame shows is proved for names, numbers and styles that can be written to XML (C94_frame_partial)."),
"C95": ("partial", "Proved for all lines whose end segments have a length, and for paths that end with C, S or Q (the other cases: C83 and C61_resize_refuted). Lengths are real numbers."),
"C97": ("partial", "Proved for texts as in C40_svg_partial (the conditions are in `measurable`), for every block. Refuted: of a block with a line break inside only the first line is measured. What Inkscape answers is a function of the document (C53)."),
"C98": ("partial", "Proved for all blocks with text that are not inside of another block (C35_nested_refuted) and have no line break, for texts with known and valid styles drawn without rotation. Pango is a parameter (positions of the characters of a line); assumed is that the scale attribute scales positions and widths (`scales`)."),
"C99": ("partial", "Proved for code without inline styles (with and without line numbers) when the style of the text has no priority above 0; SVG as in C40_svg_partial. Refuted: with a higher priority nothing is highlighted (and tokens of several lines cannot be drawn); line numbers inside of a token of several lines take its weight and slant. Inline styles: C32_code_partial with C99_ordinary."),
"C100": ("partial", "Documents proved with and without grids, presentations without. Assumed in the statement: the programs that make PDFs write one page with the drawing; pdfunite and the PDF library join the pages of their inputs. Refuted: pictures in presentations keep the ratio only if the deck has that of the template; Cairo cannot display slides as SVG."),
"C101": ("partial", "Points and shapes proved for all call sequences; on pages under the hypotheses of C91 (drawings that SVG can represent). Refuted: a coordinate None is accepted but cannot be drawn; rect() is inside of the box if it has a padding (documented as around the box)."),
"C102": ("partial", "Proved for all call sequences for the drawings of items; on pages under the hypotheses of C91/C92 (drawings that SVG can represent). Measuring texts by Inkscape, serialising XML and parsing floats are arbitrary functions. Refuted: a box for which both sizes are given keeps them; an image can enlarge it."),
"C103": ("partial", "Proved for all documents whose headings have levels 1 to 6 and whose ordered sublists start with 1 or more (others raise, C85), on slides that have the styles default and code. Refuted: a list in a quote in a list item belongs to the list outside of the quote and is not grey. Inline styles of texts are C39 and C65; texts that cannot be parsed are C85."),
"C92": ("partial", "Proved for all pages of shapes, texts, bitmaps and SVG images as in C91_page_partial, with ellipses as in C80_mixed_partial (C80_text_refuted shows where the backends differ otherwise). What texts and pictures look like inside is C39, C88 and C90."),
})
