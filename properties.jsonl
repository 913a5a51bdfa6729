{"id": "C01", "title": "Meaning of fragment selectors", "statement": "For any `show` string made of comma separated selectors (N, N+, N-M, next, next+, next-M, last, last+, last-M) with any surrounding white space, if box(show=...) accepts it then the box is visible in fragment k exactly when at least one of the selectors covers k.", "quantifier": "all finite selector lists, all numbers, all white space paddings, all current fragments, all fragments k", "why_tests_cant": "the selector grammar and the fragment numbers are unbounded", "anchors": ["elsie/slides/show.py:ShowInfo.parse", "elsie/slides/show.py:ShowInfo.is_visible", "elsie/slides/show.py:replace_relative_steps"]}
{"id": "C02", "title": "Fragment selectors are accepted exactly when well formed", "statement": "box(show=s) accepts the string s exactly when s is a comma separated list of well formed selectors with at most one open (+) selector, no reversed range, and a known current fragment whenever next/last is used; every other string is rejected with an exception.", "quantifier": "all Unicode strings and all current fragments", "why_tests_cant": "rejection must be checked for every string, not for a few malformed samples", "anchors": ["elsie/slides/show.py:ShowInfo.parse", "elsie/slides/show.py:ShowInfo.parser"]}
{"id": "C03", "title": "Number of fragments equals the highest fragment mentioned", "statement": "After any sequence of successful box/image/item calls on a slide, the number of pages the slide renders equals current_fragment(), which equals the maximum of 1 and of every fragment number any call mentioned (open start, range ends, image steps), and it never decreases. 'next' resolves to current+1 and 'last' to current at the time of the call.", "quantifier": "all histories of slide building calls", "why_tests_cant": "it is an invariant of unbounded call histories", "anchors": ["elsie/slides/slide.py:Slide.steps", "elsie/slides/slide.py:Slide.current_fragment", "elsie/boxtree/boxmixin.py:BoxMixin.box", "elsie/boxtree/box.py:Box._ensure_steps"]}
{"id": "C04", "title": "Hierarchical visibility", "statement": "A drawing item is painted on page k of a slide exactly when its box and every ancestor box are visible in fragment k, and then it is painted exactly once.", "quantifier": "all box trees, all fragments", "why_tests_cant": "trees have unbounded depth and width", "anchors": ["elsie/boxtree/box.py:Box.get_painters"]}
{"id": "C05", "title": "Paint order", "statement": "On each page the painted items appear in non-decreasing z_level order, and items of equal z_level keep the depth first order of the box tree (children in child order).", "quantifier": "all box trees and z levels", "why_tests_cant": "unbounded trees and permutations", "anchors": ["elsie/render/backends/svg/backend.py:InkscapeBackend.create_render_unit", "elsie/render/backends/cairo/backend.py:CairoBackend.create_render_unit", "elsie/boxtree/box.py:Box.get_painters"]}
{"id": "C06", "title": "Placement of a new child", "statement": "A new box is inserted directly before `below`, directly after `above`, first with prepend=True, otherwise last, among its parent's children; the relative order of all existing children is unchanged; both `above` and `below`, or a reference that is not a child, raise.", "quantifier": "all child lists and all references", "why_tests_cant": "unbounded child lists", "anchors": ["elsie/boxtree/box.py:Box.add_child"]}
{"id": "C07", "title": "A rejected box() call leaves the slide unchanged", "statement": "If a call of box() raises, the slide is as it was before the call: same boxes, same layout, same current fragment.", "quantifier": "all slide states and all argument combinations that raise", "why_tests_cant": "needs all failure points of all calls in all states", "anchors": ["elsie/boxtree/boxmixin.py:BoxMixin.box", "elsie/boxtree/layout.py:Layout.add", "elsie/boxtree/box.py:Box.add_child"]}
{"id": "C08", "title": "Size argument grammar", "statement": "A width/height string is accepted exactly when it is NN, NN%, fill or fill(NN) (decimal digits), and then denotes a minimal size of NN pixels, NN/100 of the parent, one share, or NN shares respectively; numbers and lazy values are taken as they are; anything else raises.", "quantifier": "all strings and argument kinds", "why_tests_cant": "unbounded strings", "anchors": ["elsie/boxtree/value.py:SizeValue.parse"]}
{"id": "C09", "title": "Position argument grammar and meaning", "statement": "A position string is accepted exactly when it is NN, NN% or [NN%]. NN places the box NN pixels from the parent's origin, NN% at that fraction of the parent's extent, and [NN%] aligns it: [0%] flush with the start, [50%] centred, [100%] flush with the end, and for 0..100 a box that is not larger than the parent stays inside it.", "quantifier": "all strings, all parent origins, extents and box sizes", "why_tests_cant": "unbounded strings and real valued geometry", "anchors": ["elsie/boxtree/value.py:PosValue.parse", "elsie/boxtree/value.py:PosValue.compute"]}
{"id": "C10", "title": "Filling children tile their parent", "statement": "If at least one stacked child of a box has fill size along the main axis (and none has a lazy size), the stacked children are laid out in order, without gaps or overlaps, from the start to the end of the content area, and the fill children share what the others leave in the ratio of their fill factors.", "quantifier": "all layout trees, all rectangles, both axes", "why_tests_cant": "unbounded number of children and real valued sizes", "anchors": ["elsie/boxtree/layout.py:Layout.set_rect", "elsie/boxtree/value.py:SizeValue.compute"]}
{"id": "C11", "title": "Stacked children are contiguous and centred", "statement": "If no stacked child has fill size (and none has a lazy size), the stacked children are contiguous in child order along the main axis and the free space before the first equals the free space after the last.", "quantifier": "all layout trees, all rectangles, both axes", "why_tests_cant": "unbounded number of children and real valued sizes", "anchors": ["elsie/boxtree/layout.py:Layout.set_rect"]}
{"id": "C12", "title": "Cross axis placement and size of children", "statement": "Every child gets, along each axis, exactly the documented size (fixed or content minimum, percentage of the parent's content area but at least the minimum, whole cross extent for fill, the lazy value) and, when its position on the axis is given, exactly the documented position computed from the parent's content area on the SAME axis; otherwise on the cross axis it is centred.", "quantifier": "all layout trees, rectangles, positions and sizes, both orientations", "why_tests_cant": "real valued geometry over unbounded trees", "anchors": ["elsie/boxtree/layout.py:Layout.set_rect", "elsie/boxtree/value.py:PosValue.compute"]}
{"id": "C13", "title": "width/height are minimal sizes", "statement": "A box whose size is given as a number or a percentage, or not given, always ends up at least as large as requested and at least as large as its stacked children and its own text/image require (before padding is taken off).", "quantifier": "all layout trees and rectangles", "why_tests_cant": "unbounded trees", "anchors": ["elsie/boxtree/layout.py:Layout.compute_size_request", "elsie/boxtree/layout.py:Layout.min_children_size", "elsie/boxtree/value.py:SizeValue.ensure"]}
{"id": "C14", "title": "A fill box is never smaller than its content", "statement": "A box of size fill is at least as large as its content requires.", "quantifier": "all layout trees and rectangles", "why_tests_cant": "unbounded trees", "anchors": ["elsie/boxtree/layout.py:Layout.set_rect"]}
{"id": "C15", "title": "Padding", "statement": "The content area of a box is its allotted rectangle minus the four paddings, each padding resolves as the specific value, else the axis value, else the common value, else 0, and the box asks its parent for its content plus padding.", "quantifier": "all padding arguments, rectangles and trees", "why_tests_cant": "all combinations over reals", "anchors": ["elsie/boxtree/layout.py:Layout.add", "elsie/boxtree/layout.py:_set_padding", "elsie/utils/geom.py:Rect.shrink"]}
{"id": "C16", "title": "Stacked boxes of natural size never leave their parent or overlap", "statement": "In a tree whose boxes have number/default sizes, default positions and non negative paddings, if the slide is at least as large as the root's request then every box lies inside its parent's content area, at every depth, and siblings do not overlap.", "quantifier": "all such trees, arbitrary depth", "why_tests_cant": "induction over unbounded trees", "anchors": ["elsie/boxtree/layout.py:Layout.set_rect", "elsie/boxtree/layout.py:Layout.compute_size_request"]}
{"id": "C17", "title": "Overlay covers the parent and disturbs nothing", "statement": "overlay() gives a box that covers exactly the parent's content area, and adding any explicitly positioned child leaves the rectangles of all other descendants unchanged.", "quantifier": "all layout trees and rectangles", "why_tests_cant": "unbounded trees", "anchors": ["elsie/boxtree/boxmixin.py:BoxMixin.overlay", "elsie/boxtree/layout.py:Layout.set_rect"]}
{"id": "C18", "title": "Moving a parent moves its content rigidly", "statement": "Translating the rectangle given to a box translates every descendant rectangle by the same vector and changes no size (boxes without lazy values).", "quantifier": "all layout trees, rectangles, vectors", "why_tests_cant": "unbounded trees over reals", "anchors": ["elsie/boxtree/layout.py:Layout.set_rect"]}
{"id": "C19", "title": "Dynamic positions resolve to the final rectangle", "statement": "A value obtained from box.x(v)/box.y(v)/box.p(x,y) used as position or size of a box that is laid out later resolves to the final rectangle of the referenced box; if the referenced box is laid out later, the first render raises.", "quantifier": "all layout trees, all references, all first renders", "why_tests_cant": "depends on the evaluation order over unbounded trees", "anchors": ["elsie/boxtree/lazy.py:LazyValue", "elsie/boxtree/layout.py:Layout.x", "elsie/boxtree/layout.py:Layout.set_rect"]}
{"id": "C20", "title": "Rendering twice gives the same layout", "statement": "Preparing (rendering) a slide a second time, without changing it, gives the same rectangles and text scales as the first time.", "quantifier": "all slides, any number of renders", "why_tests_cant": "state carried between renders over unbounded trees", "anchors": ["elsie/slides/slide.py:Slide.prepare", "elsie/boxtree/layout.py:Layout.set_rect", "elsie/text/textboxitem.py:TextBoxItem.__init__"]}
{"id": "C21", "title": "scale_to_fit fills the box", "statement": "With scale_to_fit=True the rendered text has the aspect ratio of the unscaled text, is not larger than the box in either direction, and touches the box in at least one direction.", "quantifier": "all text sizes and boxes", "why_tests_cant": "real valued", "anchors": ["elsie/text/textboxitem.py:TextBoxItem.__init__"]}
{"id": "C22", "title": "Images keep their aspect ratio and fit the box", "statement": "Without explicit scale an image is drawn with its own aspect ratio, centred in the box, not larger than the box, and as large as possible; with explicit scale it is drawn centred with exactly that scale. A box without size arguments asks for the image size (plus padding); a box with only one size given asks for the other so that the ratio is kept.", "quantifier": "all image and box sizes", "why_tests_cant": "real valued", "anchors": ["elsie/boxtree/boxmixin.py:scaler", "elsie/boxtree/boxmixin.py:BoxMixin._image_bitmap", "elsie/boxtree/layout.py:Layout.set_image_size_request"]}
{"id": "C23", "title": "Plain text is shown as written", "statement": "Text without the escape character is shown verbatim, line by line; only trailing newlines are dropped, and the number of lines the layout reserves equals the number of lines shown.", "quantifier": "all strings", "why_tests_cant": "all strings", "anchors": ["elsie/text/textparser.py:parse_text", "elsie/text/textparser.py:normalize_tokens", "elsie/text/textparser.py:number_of_lines", "elsie/text/textparser.py:tokens_to_text_without_style"]}
{"id": "C24", "title": "Inline styles parse back", "statement": "For every nesting of inline styles ~name{...}, parsing the marked up text gives exactly that nesting and that text (up to dropped trailing newlines and newlines moved out of a closing style).", "quantifier": "all styled documents of any depth, all escape/begin/end characters", "why_tests_cant": "unbounded nesting", "anchors": ["elsie/text/textparser.py:parse_text", "elsie/text/textparser.py:normalize_tokens"]}
{"id": "C25", "title": "Parsed text is balanced, bad text is rejected", "statement": "parse_text either raises, exactly when some inline style is never closed, or returns tokens whose begin/end markers are balanced, with no empty text tokens, no newline inside a text token, no two adjacent newline tokens, and no trailing newline.", "quantifier": "all strings and delimiter characters", "why_tests_cant": "all strings", "anchors": ["elsie/text/textparser.py:parse_text", "elsie/text/textparser.py:normalize_tokens"]}
{"id": "C26", "title": "Doubling the escape character escapes it", "statement": "As documented, '~~' in a text stands for the character '~' (and text(...) accepts it).", "quantifier": "all strings", "why_tests_cant": "all strings", "anchors": ["elsie/text/textparser.py:parse_text", "docs/userguide/text.md"]}
{"id": "C27", "title": "Line extraction for inline boxes", "statement": "For any balanced token list and any position, the extracted line contains exactly the text of that line, with exactly the styles that are open, is balanced, and the returned index points to the original token.", "quantifier": "all balanced token lists and positions", "why_tests_cant": "unbounded token lists", "anchors": ["elsie/text/textparser.py:extract_line", "elsie/text/textparser.py:_open_blocks"]}
{"id": "C28", "title": "Line numbers", "statement": "With line_numbers=True every line of the snippet is prefixed by its number, counted from 1, all numbers padded to the same width; nothing else of the text or the number of lines changes, and styles stay balanced.", "quantifier": "all token lists", "why_tests_cant": "unbounded", "anchors": ["elsie/text/textparser.py:add_line_numbers"]}
{"id": "C29", "title": "Merging highlighting and inline styles keeps the text", "statement": "tokens_merge of two balanced token lists with the same text never fails, keeps exactly that text (up to trailing newlines), and is balanced.", "quantifier": "all pairs of balanced token lists with equal text", "why_tests_cant": "unbounded pairs of nestings", "anchors": ["elsie/text/textparser.py:tokens_merge", "elsie/text/textparser.py:_tokens_merge_helper"]}
{"id": "C30", "title": "Merging gives each character the styles of both sources", "statement": "In the merged text every character carries exactly the styles it carries in the first list plus those it carries in the second.", "quantifier": "all pairs of balanced token lists with equal text", "why_tests_cant": "unbounded pairs of nestings", "anchors": ["elsie/text/textparser.py:tokens_merge"]}
{"id": "C31", "title": "trim_indent", "statement": "trim_indent removes the same number of leading characters from every line, as many as possible without touching a non blank character, keeps the number of lines, and is idempotent; it raises exactly when there is no non blank line.", "quantifier": "all strings", "why_tests_cant": "all strings", "anchors": ["elsie/text/textparser.py:trim_indent"]}
{"id": "C32", "title": "code() shows the code", "statement": "For any tokenisation by the highlighter whose token texts concatenate to the code, code(language, ...) shows exactly the code, line by line, tabs expanded, with leading newlines kept and trailing newlines dropped, with the requested inline styles balanced.", "quantifier": "all codes and all tokenisations", "why_tests_cant": "the highlighter is external: must hold for every tokenisation", "anchors": ["elsie/boxtree/boxmixin.py:BoxMixin.code", "elsie/text/highlight.py:MyFormatter.format"]}
{"id": "C33", "title": "Line boxes cover the lines they name", "statement": "line_box(i, n) starts at the top of line i of the rendered (possibly scaled, centred) text and spans n line heights (plus one pixel); consecutive lines tile the text from its top to its bottom.", "quantifier": "all texts, rectangles, scales, line indices", "why_tests_cant": "real valued, unbounded lines", "anchors": ["elsie/text/textboxitem.py:TextBoxItem.line_box"]}
{"id": "C34", "title": "Inline boxes sit on the right line and occurrence", "statement": "inline_box(style, n) refers to the n-th occurrence of the style in reading order, raises exactly if there are fewer, and is vertically identical to the line_box of the line in which that occurrence starts.", "quantifier": "all token lists, style names and n", "why_tests_cant": "unbounded", "anchors": ["elsie/text/textboxitem.py:TextBoxItem.inline_box", "elsie/text/textboxitem.py:TextBoxItem._text_box_helper"]}
{"id": "C35", "title": "Cairo measures exactly the styled range", "statement": "With the Cairo backend the measured byte range of an inline box is exactly the UTF-8 range of the text enclosed by that style.", "quantifier": "all balanced single line token lists and positions", "why_tests_cant": "unbounded nesting", "anchors": ["elsie/render/backends/cairo/text.py:get_byte_range"]}
{"id": "C36", "title": "Style composition", "statement": "a.compose(b) takes every attribute from b where b specifies it and from a otherwise, changes neither a nor b, and composition is associative with the empty style as identity.", "quantifier": "all styles", "why_tests_cant": "all attribute combinations", "anchors": ["elsie/text/textstyle.py:TextStyle.update", "elsie/text/textstyle.py:TextStyle.compose"]}
{"id": "C37", "title": "Style scoping", "statement": "Setting or updating a style on a box changes what is seen in that box and in boxes created from it afterwards, and nothing in any other box (parents, siblings, children created before, other slides), for any history.", "quantifier": "all histories of box creation and style operations", "why_tests_cant": "unbounded histories with aliasing", "anchors": ["elsie/text/stylecontainer.py:StyleContainer", "elsie/boxtree/boxmixin.py:BoxMixin.box", "elsie/slides/slidedeck.py:SlideDeck.new_slide"]}
{"id": "C38", "title": "Returned styles are private copies", "statement": "Mutating a TextStyle obtained from or passed to a style container does not change any style stored in the container.", "quantifier": "all histories including mutations of style objects", "why_tests_cant": "aliasing over unbounded histories", "anchors": ["elsie/text/stylecontainer.py:StyleContainer.set_style", "elsie/text/stylecontainer.py:StyleContainer.get_style", "elsie/text/textstyle.py:compose_style"]}
{"id": "C39", "title": "SVG text is well nested XML", "statement": "Drawing any balanced text with known styles in SVG succeeds and emits well nested markup that closes everything it opened.", "quantifier": "all balanced token lists and style dictionaries", "why_tests_cant": "unbounded nesting", "anchors": ["elsie/render/backends/svg/draw.py:draw_text"]}
{"id": "C40", "title": "Style priority", "statement": "An inline style takes effect exactly when its priority is at least that of the innermost enclosing effective style, in both backends.", "quantifier": "all balanced token lists and style dictionaries", "why_tests_cant": "unbounded nesting", "anchors": ["elsie/render/backends/svg/draw.py:draw_text", "elsie/render/backends/cairo/text.py:get_text_and_attributes"]}
{"id": "C41", "title": "Text is escaped", "statement": "Any text written to the SVG is read back by an XML reader as the same text (spaces as non breaking spaces), and contains no markup.", "quantifier": "all strings", "why_tests_cant": "all strings", "anchors": ["elsie/utils/sxml.py:escape_text", "elsie/utils/sxml.py:Xml.text"]}
{"id": "C42", "title": "Attribute values are escaped", "statement": "Any attribute value written to the SVG is read back by an XML reader as that value.", "quantifier": "all strings", "why_tests_cant": "all strings", "anchors": ["elsie/utils/sxml.py:Xml.set"]}
{"id": "C43", "title": "The XML writer only produces well nested documents", "statement": "Any sequence of writer calls either raises or, when to_string() succeeds, has produced properly nested elements, each closed once with its own name, attributes only inside start tags.", "quantifier": "all call sequences", "why_tests_cant": "unbounded call histories", "anchors": ["elsie/utils/sxml.py:Xml"]}
{"id": "C44", "title": "Name policies", "statement": "Under policy unique no two slides ever have the same name and a clash raises and changes nothing; under replace a new slide removes the previous slide of that name, keeps all others in order and is appended, so names stay unique; under ignore every slide is kept.", "quantifier": "all histories of new_slide calls", "why_tests_cant": "unbounded histories", "anchors": ["elsie/slides/slidedeck.py:SlideDeck._apply_name_policy", "elsie/slides/slidedeck.py:SlideDeck.new_slide"]}
{"id": "C45", "title": "Slide indices identify slides", "statement": "No two slides of a deck have the same index (the index names the debug files), and named slides can be created whatever was added before (slides or PDFs).", "quantifier": "all histories of new_slide/add_pdf calls", "why_tests_cant": "unbounded histories", "anchors": ["elsie/slides/slidedeck.py:SlideDeck.new_slide", "elsie/slides/slidedeck.py:SlideDeck.get_slide_by_name", "elsie/slides/slidedeck.py:SlideDeck.add_pdf", "elsie/render/render.py:SvgRenderUnit.write_debug"]}
{"id": "C46", "title": "Pages of the output", "statement": "render() produces, in slide order, exactly one page for each fragment 1..n of each selected slide, and nothing else.", "quantifier": "all decks and selections", "why_tests_cant": "unbounded decks", "anchors": ["elsie/slides/slidedeck.py:SlideDeck.render"]}
{"id": "C47", "title": "Several slides per page", "statement": "With slides_per_page the pages contain all slides in order, each exactly once, at most columns*rows per page, all pages but the last full, no two slides of a page in the same cell, and all cells inside the page.", "quantifier": "all unit lists and grid sizes", "why_tests_cant": "unbounded lists", "anchors": ["elsie/render/render.py:per_page_grouping"]}
{"id": "C48", "title": "The query cache is transparent", "statement": "Whatever the history of queries, renders, prunes, saves and restarts with the same versions, a text measurement always returns what Inkscape returns for that query; entries of another Elsie or Inkscape version are never used.", "quantifier": "all histories across process restarts", "why_tests_cant": "unbounded histories", "anchors": ["elsie/render/backends/svg/backend.py:InkscapeBackend.process_query", "elsie/render/backends/svg/backend.py:InkscapeBackend._load_query_cache"]}
{"id": "C49", "title": "The query cache keeps what the presentation uses", "statement": "After a render, the saved query cache holds every measurement that the presentation used, so the next run recomputes none of them.", "quantifier": "all histories of queries and renders", "why_tests_cant": "unbounded histories", "anchors": ["elsie/render/backends/svg/backend.py:InkscapeBackend.prune_cache", "elsie/render/backends/svg/backend.py:InkscapeBackend.save_cache"]}
{"id": "C50", "title": "The file cache returns valid files", "statement": "In any sequential history of cache operations, the path returned by the cache names an existing file that holds what the constructor makes of the input.", "quantifier": "all sequential histories, including prunes", "why_tests_cant": "unbounded histories", "anchors": ["elsie/utils/cache.py:FsCache.ensure", "elsie/utils/cache.py:FsCache.get", "elsie/utils/cache.py:FsCache.remove_unused"]}
{"id": "C51", "title": "Pruning removes exactly the unused entries and can be repeated", "statement": "remove_unused deletes exactly the cache files that were not used since the deck was created, never a used one, and may be called again (render twice) without failing.", "quantifier": "all sequential histories", "why_tests_cant": "unbounded histories", "anchors": ["elsie/utils/cache.py:FsCache.remove_unused", "elsie/slides/slidedeck.py:SlideDeck.render"]}
{"id": "C52", "title": "Concurrent cache requests", "statement": "When several threads request the same entry, the constructor runs at most once, every request returns after it is complete, and no thread is blocked for ever, under every interleaving.", "quantifier": "all numbers of threads and all interleavings", "why_tests_cant": "interleavings cannot be enumerated by tests", "anchors": ["elsie/utils/cache.py:FsCache.ensure"]}
{"id": "C53", "title": "Cache crash safety", "statement": "If the process is killed at any point while building a cache entry, a later run never returns an incomplete file.", "quantifier": "all crash points", "why_tests_cant": "crash points", "anchors": ["elsie/utils/cache.py:FsCache.__init__", "elsie/utils/cache.py:FsCache.get"]}
{"id": "C54", "title": "Inkscape shell protocol", "statement": "For every command whose output contains no prompt, run_command returns the last line of that output and leaves the following output unread; if the Inkscape process ends, the call returns or raises.", "quantifier": "all outputs", "why_tests_cant": "all byte streams", "anchors": ["elsie/render/inkscape.py:InkscapeShell.wait_for_prompt", "elsie/render/inkscape.py:InkscapeShell.run_command"]}
{"id": "C55", "title": "Fragments inside SVG images", "statement": "Fragment k of an SVG image keeps exactly the elements such that neither they nor an ancestor below the root are labelled with a selector that excludes k; order and nesting are unchanged, the source image is not modified, and the number of fragments is the largest number in a label.", "quantifier": "all SVG trees, labels and fragments", "why_tests_cant": "unbounded trees", "anchors": ["elsie/render/image.py:create_image_data", "elsie/render/image.py:get_image_steps", "elsie/slides/show.py:ShowInfo.from_label"]}
{"id": "C56", "title": "Which image fragment is drawn on which page", "statement": "An image with show_begin b is drawn on no page before b; without selection page k shows image fragment k-b+1, and with select_fragments page k shows the entry number k-b+1 of the list, or nothing if it is None or outside the list.", "quantifier": "all show_begin, selections, pages", "why_tests_cant": "unbounded", "anchors": ["elsie/boxtree/boxmixin.py:BoxMixin._image_svg"]}
{"id": "C57", "title": "Renaming ids keeps references", "statement": "Renaming the ids of an embedded SVG appends the suffix to every id and every reference '#id' in an attribute is changed to the renamed id, so references resolve as before and ids of differently suffixed documents are disjoint.", "quantifier": "all SVG trees and ids", "why_tests_cant": "unbounded trees and id sets", "anchors": ["elsie/render/backends/svg/utils.py:rename_ids", "elsie/ext/latex.py:_render_latex"]}
{"id": "C58", "title": "SVG units", "statement": "svg_size_to_pixels converts NN, NNpx, NNmm, NNcm, NNpt and NNin to CSS pixels (96 per inch).", "quantifier": "all numbers and unit suffixes", "why_tests_cant": "all strings", "anchors": ["elsie/render/backends/svg/utils.py:svg_size_to_pixels"]}
{"id": "C59", "title": "Quadratic curves are drawn exactly", "statement": "The cubic curve drawn for a quadratic Bezier segment is, for every parameter value, the same point.", "quantifier": "all control points and parameters", "why_tests_cant": "real valued", "anchors": ["elsie/render/backends/cairo/shapes.py:draw_quadratic_bezier"]}
{"id": "C60", "title": "Paths mean the same in Cairo and in SVG", "statement": "For every path accepted by path(), the Cairo backend draws the segments that the SVG specification assigns to that path.", "quantifier": "all command lists", "why_tests_cant": "unbounded command lists", "anchors": ["elsie/render/backends/cairo/shapes.py:draw_path", "elsie/shapes/path.py:check_and_unpack_path_commands"]}
{"id": "C61", "title": "Arrow geometry", "statement": "Shortening or extending a segment keeps its direction and start and changes its length by exactly the given amount (for segments of positive length); the two wings of an arrow head are at distance `size` from the tip and symmetric about the line.", "quantifier": "all real segments, sizes and angles", "why_tests_cant": "real valued", "anchors": ["elsie/utils/geom.py:segment_resize", "elsie/shapes/arrow.py:Arrow.render"]}
{"id": "C62", "title": "List numbering", "statement": "The n-th item of a (sub)list with start s carries the counters of the enclosing lists at creation time of the sublist followed by s+n-1; creating items in one list never changes the counters of another list already created.", "quantifier": "all histories of item/ul/ol calls", "why_tests_cant": "unbounded histories with shared lists", "anchors": ["elsie/ext/list.py:ListBuilder"]}
{"id": "C63", "title": "List indentation", "statement": "A sublist is indented by the specified amount of pixels relative to its parent list.", "quantifier": "all nestings and indents", "why_tests_cant": "unbounded nesting", "anchors": ["elsie/ext/list.py:ListBuilder._create_box"]}
{"id": "C64", "title": "Fragment navigation in notebooks", "statement": "For any click sequence the shown fragment is always between 1 and the number of fragments, next/previous move by one and stop at the ends, where the buttons are disabled.", "quantifier": "all click sequences", "why_tests_cant": "unbounded histories", "anchors": ["elsie/render/jupyter.py:get_javascript"]}
{"id": "C65", "title": "Markdown inline markup", "statement": "For every tree of emphasis/strong/link nodes the shown text is the text of the markdown nodes and every character carries exactly the styles of its enclosing nodes.", "quantifier": "all inline trees", "why_tests_cant": "unbounded trees", "anchors": ["elsie/ext/markdown.py:get_raw_text", "elsie/ext/markdown.py:MarkdownContext.wrap_text_with_style"]}
{"id": "C66", "title": "ORA layers", "statement": "An ORA image is converted to an SVG whose drawing order is the bottom to top layer order, that contains exactly the non empty layers that are visible together with all enclosing stacks, well nested.", "quantifier": "all layer stacks", "why_tests_cant": "unbounded trees", "anchors": ["elsie/render/ora.py:_children_to_svg"]}
{"id": "C67", "title": "The layout tree mirrors the box tree", "statement": "After any sequence of successful box/item calls every box has exactly one layout and the layout of a box is a child of the layout of its parent box; no other layouts exist.", "quantifier": "all histories of slide building calls", "why_tests_cant": "an invariant of two trees over unbounded histories", "anchors": ["elsie/boxtree/boxmixin.py:BoxMixin.box", "elsie/boxtree/box.py:Box.add_child", "elsie/boxtree/layout.py:Layout.add"]}
{"id": "C68", "title": "Calls do not disturb other boxes", "statement": "No call, successful or rejected, removes a box of the slide or changes its z level or the fragments in which it is visible.", "quantifier": "all reachable slides and all calls", "why_tests_cant": "all states and calls", "anchors": ["elsie/boxtree/boxmixin.py:BoxMixin.box", "elsie/boxtree/box.py:Box._ensure_steps"]}
{"id": "C70", "title": "Style attributes are validated", "statement": "Every style that can be built has only admissible attribute values (strings, numbers or booleans as the attribute demands, one of the listed choices for alignment and numeric variant, None only where it means unspecified); a constructor call or assignment with any other value raises and leaves all styles as they were.", "quantifier": "all histories of style calls", "why_tests_cant": "all values and histories", "anchors": ["elsie/text/textstyle.py:TextStyle.__init__", "elsie/text/textstyle.py:TextStyle._check_size", "elsie/text/stylecontainer.py:StyleContainer"]}
{"id": "C71", "title": "Line boxes span the box of the text", "statement": "A line box created without x and width has the horizontal position and the width of the box that holds the text.", "quantifier": "all layout trees", "why_tests_cant": "all trees and rectangles", "anchors": ["elsie/text/textboxitem.py:TextBoxItem.line_box", "elsie/boxtree/layout.py:Layout.set_rect"]}
{"id": "C69", "title": "Both backends show the same styles", "statement": "For every text and every table of styles, each character of the text is shown by the SVG backend with the same font, size, colour, opacity, boldness and slant as by the Cairo backend.", "quantifier": "all token lists and style tables", "why_tests_cant": "two independent implementations of style nesting over unbounded token lists", "anchors": ["elsie/render/backends/svg/draw.py:draw_text", "elsie/render/backends/cairo/text.py:get_text_and_attributes"]}
{"id": "C72", "title": "The XML writer produces well-formed documents", "statement": "Whatever balanced sequence of element, set, text and close calls is made with names and characters allowed in XML, the resulting string is a well-formed XML document that reads back as exactly the tree that was written.", "quantifier": "all balanced call sequences", "why_tests_cant": "unbounded trees, against an independent reader", "anchors": ["elsie/utils/sxml.py:Xml"]}
{"id": "C73", "title": "Name policy arguments", "statement": "SlideDeck accepts exactly the documented name policies and each means what is documented; in particular auto means replace inside a notebook and unique elsewhere.", "quantifier": "all arguments, and all histories of the decks made with them", "why_tests_cant": "the promise of auto is about all later calls", "anchors": ["elsie/slides/slidedeck.py:SlideDeck.__init__"]}
{"id": "C74", "title": "A failing render removes nothing from the caches", "statement": "With prune_cache, unused cache data is removed only by a render that succeeds.", "quantifier": "all decks, arguments and failures", "why_tests_cant": "all points of failure", "anchors": ["elsie/slides/slidedeck.py:SlideDeck.render"]}
{"id": "C75", "title": "Inkscape is left without open documents", "statement": "Every measurement and every export closes the document that it opened in Inkscape, also if it fails.", "quantifier": "all behaviours of Inkscape", "why_tests_cant": "all outputs, including wrong ones", "anchors": ["elsie/render/inkscape.py:svg_file_input", "elsie/render/inkscape.py:InkscapeShell.run_query", "elsie/render/inkscape.py:InkscapeShell.convert_to_pdf"]}
{"id": "C76", "title": "The query cache survives a crash", "statement": "Wherever a process is killed, a later one starts.", "quantifier": "all histories and crash points", "why_tests_cant": "crash points", "anchors": ["elsie/render/backends/svg/backend.py:InkscapeBackend._save_query_cache", "elsie/render/backends/svg/backend.py:InkscapeBackend._load_query_cache"]}
{"id": "C77", "title": "A failed build can be repeated", "statement": "If building a cache entry fails, the error is reported and a later request for the same entry tries again.", "quantifier": "all histories", "why_tests_cant": "unbounded histories", "anchors": ["elsie/utils/cache.py:FsCache.ensure", "elsie/utils/cache.py:FsCache.get"]}
{"id": "C78", "title": "The type of an image", "statement": "image() takes a file as SVG, ORA, PNG or JPEG exactly if its name ends with the extension of that type, and rejects all other names.", "quantifier": "all file names", "why_tests_cant": "all names", "anchors": ["elsie/boxtree/boxmixin.py:BoxMixin.image"]}
{"id": "C79", "title": "Both backends draw the same shapes", "statement": "Every rectangle, ellipse, polygon, polyline and path, with any colours, widths, dashes and rotation, has on the Cairo backend the outline, the transformation and the paint that the SVG specification assigns to the element written by the SVG backend.", "quantifier": "all shapes, paints, rotations and drawing states", "why_tests_cant": "real valued; two independent implementations", "anchors": ["elsie/render/backends/cairo/rcontext.py", "elsie/render/backends/svg/draw.py"]}
{"id": "C80", "title": "Shapes do not influence each other", "statement": "On the Cairo backend what is painted for a shape does not depend on what was drawn before it.", "quantifier": "all sequences of shapes", "why_tests_cant": "unbounded sequences of state changes", "anchors": ["elsie/render/backends/cairo/draw.py:ctx_scope", "elsie/render/backends/cairo/rcontext.py"]}
{"id": "C81", "title": "Viewboxes on the Cairo backend", "statement": "apply_viewbox maps the viewbox into the given area as SVG does by default: same scale in both directions, the largest that fits, and the content centred.", "quantifier": "all areas and viewboxes", "why_tests_cant": "real valued", "anchors": ["elsie/render/backends/cairo/draw.py:apply_viewbox"]}
{"id": "C82", "title": "Rounded rectangles on the Cairo backend", "statement": "The outline of a rounded rectangle is the one of SVG: straight sides and four corners that are (nearly) elliptical arcs, with radii at most half the sides; a missing radius is the other one.", "quantifier": "all rectangles and radii", "why_tests_cant": "real valued", "anchors": ["elsie/render/backends/cairo/draw.py:rounded_rectangle", "elsie/render/backends/cairo/rcontext.py:CairoRenderingContext.draw_rect"]}
{"id": "C83", "title": "The arrow of a path continues the path", "statement": "The arrow head at the end of a path points in the direction in which the path ends.", "quantifier": "all paths and arrows", "why_tests_cant": "real valued; unbounded paths", "anchors": ["elsie/shapes/path.py:path_points_for_end_arrow", "elsie/boxtree/boxmixin.py:BoxMixin.path"]}
{"id": "C84", "title": "When list items are shown", "statement": "The box of an item or sublist is shown in exactly the fragments that its own show argument names, without one those of the nearest enclosing list that has one, by default from the last fragment of the slide at the moment of the call on; no later call changes this.", "quantifier": "all histories of lists, sublists and items, all shows", "why_tests_cant": "unbounded nesting and histories", "anchors": ["elsie/ext/list.py:ListBuilder.__init__", "elsie/ext/list.py:ListBuilder.item", "elsie/ext/list.py:ListBuilder._create_sublist", "elsie/ext/list.py:ListBuilder._create_box"]}
{"id": "C85", "title": "Markdown keeps the order of the document", "statement": "markdown() puts every heading, paragraph, blank line, code block and list item label of the document into one new box, each exactly once and in the order of the document, with its text and style.", "quantifier": "all documents (trees of blocks), all slides", "why_tests_cant": "unbounded nesting of lists and quotes", "anchors": ["elsie/ext/markdown.py:markdown", "elsie/ext/markdown.py:build", "elsie/ext/markdown.py:build_list_top", "elsie/ext/markdown.py:build_quote"]}
{"id": "C86", "title": "A markdown document is shown as a whole", "statement": "All parts of a markdown document are shown in the same fragments, and markdown() adds no fragment.", "quantifier": "all documents, all slides and fragments", "why_tests_cant": "unbounded nesting; all fragments", "anchors": ["elsie/ext/markdown.py:build_list_top", "elsie/ext/list.py:ListBuilder.__init__"]}
{"id": "C87", "title": "Labels of markdown lists", "statement": "The items of an ordered list of a markdown document are numbered consecutively from the start of the list, whatever is nested in them, without the numbers of the lists around; the items of an unordered list have the bullet of the document.", "quantifier": "all documents, all slides", "why_tests_cant": "unbounded nesting", "anchors": ["elsie/ext/markdown.py:build_list_top", "elsie/ext/list.py:ListBuilder"]}
{"id": "C88", "title": "Both backends place pictures alike", "statement": "The SVG and the Cairo backend draw an image so that each of its points is in the same place of the slide: the centre of the image in the centre of its box, enlarged by the scale, turned clockwise by the rotation about that centre.", "quantifier": "all boxes, image sizes, scales, rotations, view boxes and output formats", "why_tests_cant": "real-valued geometry; the backends use different representations", "anchors": ["elsie/boxtree/boxmixin.py:BoxMixin._image_bitmap", "elsie/boxtree/boxmixin.py:BoxMixin._image_svg", "elsie/render/backends/svg/rcontext.py:SvgRenderingContext.draw_svg", "elsie/render/backends/svg/draw.py:draw_bitmap", "elsie/render/backends/cairo/rcontext.py:CairoRenderingContext.draw_bitmap", "elsie/render/backends/cairo/svg.py:CairoSurface"]}
{"id": "C89", "title": "LaTeX is centred in its box", "statement": "latex() draws its picture in the middle of the box, scale times its own size, on both backends.", "quantifier": "all boxes, picture sizes and scales", "why_tests_cant": "real-valued geometry; needs LaTeX to run", "anchors": ["elsie/ext/latex.py:latex", "elsie/ext/latex.py:_draw", "elsie/render/backends/cairo/svg.py:CairoSurface"]}
{"id": "C90", "title": "Both backends place texts alike", "statement": "The SVG and the Cairo backend draw a text with the same anchor (the point of the first baseline that the alignment selects), the same size of the glyphs, turned about the middle of the box, and with the same distance of lines.", "quantifier": "all boxes, alignments, scales, rotations, contexts", "why_tests_cant": "real-valued geometry; the backends use different representations", "anchors": ["elsie/text/textboxitem.py:TextBoxItem.render", "elsie/render/backends/svg/rcontext.py:SvgRenderingContext.draw_text", "elsie/render/backends/cairo/rcontext.py:CairoRenderingContext.draw_text", "elsie/render/backends/cairo/text.py:build_layout"]}
{"id": "C91", "title": "A page shows its items", "statement": "The SVG document of a page is well-formed; its root has, for every item that is visible in the step, the elements that the item draws, once, in the order of z-levels, and nothing else.", "quantifier": "all slides, steps, items and numbers", "why_tests_cant": "unbounded trees and drawings; needs an XML reader of its own", "anchors": ["elsie/render/backends/svg/backend.py:SvgBackend.render_page", "elsie/render/backends/svg/rcontext.py:SvgRenderingContext", "elsie/render/backends/svg/utils.py:svg_begin", "elsie/render/backends/svg/draw.py"]}
{"id": "C92", "title": "A page of shapes looks the same in both backends", "statement": "For every page of shapes, the n-th element of the SVG document describes the outline, fill and stroke that the Cairo backend paints n-th.", "quantifier": "all sequences of shapes, all initial matrices", "why_tests_cant": "real-valued geometry; unbounded sequences; two different representations", "anchors": ["elsie/render/backends/svg/rcontext.py:SvgRenderingContext", "elsie/render/backends/cairo/rcontext.py:CairoRenderingContext", "elsie/render/backends/cairo/shapes.py"]}
{"id": "C93", "title": "Shortcuts for boxes", "statement": "overlay() puts a box on the whole content area of its parent, sbox() and the lists span it across the stacking direction, fbox() also takes its part of the free space along it; at any later time of the slide, and keywords that are given win over these defaults.", "quantifier": "all reachable slides, boxes, keywords and later programs", "why_tests_cant": "unbounded trees and call sequences", "anchors": ["elsie/boxtree/boxmixin.py:BoxMixin.overlay", "elsie/boxtree/boxmixin.py:BoxMixin.fbox", "elsie/boxtree/boxmixin.py:BoxMixin.sbox"]}
{"id": "C94", "title": "Debug frames only add", "statement": "With debug_boxes, a page has the same items in the same order; in addition it has one frame for each visible box, painted after the content of the box that is not on a higher level, which shows the outline of the box and a label with its name and size.", "quantifier": "all slides, steps and items", "why_tests_cant": "unbounded trees; the image is not compared by tests", "anchors": ["elsie/boxtree/box.py:Box.get_painters", "elsie/boxtree/box.py:Box._debug_paint", "elsie/render/backends/svg/backend.py:SvgBackend.create_render_unit"]}
{"id": "C95", "title": "Lines and paths with arrows", "statement": "line() draws its polyline and then the head of the start arrow at the first point and of the end arrow at the last one, each pointing away from the neighbouring point, in the colour of the line; only the ends under a head are moved, to the middle of the head. path() does so at the end of a curve. Both backends draw the same shapes.", "quantifier": "all lists of points, arrows, colours", "why_tests_cant": "real-valued geometry", "anchors": ["elsie/boxtree/boxmixin.py:BoxMixin.line", "elsie/boxtree/boxmixin.py:BoxMixin.path", "elsie/shapes/arrow.py:Arrow.render", "elsie/shapes/arrow.py:Arrow.move_end_point"]}
{"id": "C96", "title": "Texts and images have room on slides", "statement": "In every slide that the API can build, the root box covers the whole slide, a box that got a text or an image has a content area of at least its size (unless the size of the box is given, 'fill' or lazy), also after any further calls, and a text scaled to fit keeps its ratio, lies inside the content area and fills one of its sides.", "quantifier": "all sequences of calls, all texts, images and sizes", "why_tests_cant": "unbounded trees and call sequences", "anchors": ["elsie/text/textboxitem.py:36-81", "elsie/boxtree/layout.py:95-104,197-226", "elsie/slides/slide.py:36-56", "elsie/boxtree/boxmixin.py:795-799"]}
{"id": "C97", "title": "Inkscape measures the text that is drawn", "statement": "The document that Inkscape gets to measure a text has the characters of the text with the looks that they have on the page. If the whole text is measured, the element named 'target' is around all characters; if a block is measured, there is exactly one such element, around exactly the characters of the block on its line. The line taken out of the text for an inline box has the same characters inside of its block.", "quantifier": "all texts, styles and blocks", "why_tests_cant": "tests do not run Inkscape; unbounded texts and nestings of styles", "anchors": ["elsie/render/backends/svg/backend.py:SvgBackend._text_query", "elsie/render/backends/svg/query.py:compute_query", "elsie/render/backends/svg/draw.py:draw_text", "elsie/text/textboxitem.py:TextBoxItem._text_box_helper"]}
{"id": "C98", "title": "With Cairo, an inline box covers the characters of its block", "statement": "The box that inline_box() creates has its left side at the first character of the block as Cairo draws it on the page, and its width is the sum of the widths of the drawn characters of the block, for every alignment and scale and for any line of the text. If the measured width of the line is not the width by which Pango aligns it, the box is off by exactly the share of the difference.", "quantifier": "all texts, styles, blocks, slides, scales and alignments", "why_tests_cant": "joins parsing, line extraction, byte ranges, layout and drawing; no test draws with Cairo and compares boxes", "anchors": ["elsie/text/textboxitem.py:TextBoxItem.inline_box", "elsie/render/backends/cairo/rcontext.py:CairoRenderingContext.compute_subtext_extents", "elsie/render/backends/cairo/rcontext.py:CairoRenderingContext.draw_text", "elsie/render/backends/cairo/text.py:build_layout"]}
{"id": "C99", "title": "Highlighted code has the looks of the theme", "statement": "A deck can be created with every pygments theme. code() draws every character with the colour, weight and slant that the theme gives to the type of its token, and otherwise with the style of the text, in both backends; line numbers are in the style code_lineno in front of every line and do not change the code. Code with a type of tokens that the theme does not know cannot be drawn.", "quantifier": "all themes, lexers, codes and styles of the text", "why_tests_cant": "unbounded texts; tests compare a few images", "anchors": ["elsie/text/highlight.py:make_highlight_styles", "elsie/text/highlight.py:MyFormatter.format", "elsie/slides/slidedeck.py:82-103", "elsie/boxtree/boxmixin.py:BoxMixin.code"]}
{"id": "C100", "title": "Exports have all pages in order", "statement": "The document that render() writes has, in order, one page with the drawing for each fragment of each slide and all pages of the PDFs of the deck, with both mergers. A presentation made by export_pptx() has one slide for each fragment, with the picture of the fragment over the whole slide in the ratio of the deck. A slide displayed in a notebook shows exactly the drawing of its current fragment, whatever is clicked, in both formats and with both backends; displaying prunes nothing.", "quantifier": "all decks, render arguments, histories of notebook events", "why_tests_cant": "unbounded decks and histories; tests export few pages and never to pptx", "anchors": ["elsie/render/pdfmerge.py:ExternalMerger.write", "elsie/render/pdfmerge.py:get_pdf_merger_by_name", "elsie/ext/export.py:export_pptx", "elsie/render/jupyter.py:get_slide_repr_steps", "elsie/slides/slidedeck.py:365-386"]}
{"id": "C101", "title": "Shapes are at the boxes and points they refer to", "statement": "A lazy value or point made by x(), y(), p(), mid_point() and add() at any time stands for the place of its box in the final layout, however the slide was changed later. rect() and ellipse() draw the content area that their box has in the end; polygon(), line() and path() go through the places of their points, in order; numbers and strings are relative to the box the shape is drawn on. Points and commands that are not of the documented forms are rejected, and a rejected call changes nothing.", "quantifier": "all sequences of calls, all points and shapes", "why_tests_cant": "unbounded trees and call sequences between making a point and rendering", "anchors": ["elsie/boxtree/lazy.py:LazyPoint", "elsie/boxtree/lazy.py:unpack_point", "elsie/boxtree/layout.py:203-215", "elsie/boxtree/boxmixin.py:BoxMixin.mid_point", "elsie/boxtree/boxmixin.py:BoxMixin.polygon", "elsie/boxtree/boxmixin.py:BoxMixin.rect", "elsie/shapes/path.py:check_and_unpack_path_commands"]}
{"id": "C102", "title": "Texts and images are where and as large as their box allows, through all calls", "statement": "A text drawn on a box is, in the end, in the middle of the rectangle which the final layout gives this box, aligned by its style, with its first base line one text size below the top of its lines; texts and images drawn with their own size are inside of their box, and scaled texts fill it without leaving it. A bitmap or SVG image is centred in its box with its proportions kept, multiplied by the given scale. Every item of the slide is drawn by exactly the call which made it. An SVG image makes the slide long enough for its last fragment; shapes, texts and bitmaps do not change the number of pages.", "quantifier": "all sequences of calls before and after, all texts, styles, images and scales", "why_tests_cant": "unbounded trees and call sequences between drawing an item and rendering; styles, sizes and layouts are not enumerable", "anchors": ["elsie/boxtree/boxmixin.py:BoxMixin.text", "elsie/boxtree/boxmixin.py:BoxMixin.image", "elsie/text/textboxitem.py:TextBoxItem", "elsie/boxtree/layout.py:217-226"]}
{"id": "C103", "title": "The looks of a markdown document", "statement": "markdown() draws headings, paragraphs, code and labels in the styles of their names, completed by the default style of their place: every quote and every list item around a text changes the default style for what is inside of it and for nothing else. Styles that the slide already has are used as they are; missing ones are defined with the documented values (left aligned; headings of size 40, 38, ... 30; links, quotes, bold and italic) for the document only. Texts in quotes are grey, others keep the colour of the slide. No other box, slide or text changes its looks.", "quantifier": "all decks and histories of style calls, all documents", "why_tests_cant": "unbounded nesting of quotes and lists, and mutable style objects shared between boxes", "anchors": ["elsie/ext/markdown.py:create_root_md_box", "elsie/ext/markdown.py:build_quote", "elsie/ext/markdown.py:build_list_top", "elsie/ext/list.py:ListBuilder.item", "elsie/text/stylecontainer.py:StyleContainer"]}
{"id": "C104", "title": "Todo placeholders", "statement": "todo_placeholder(box, name) adds to the end of the box exactly two nested frames, shown in all fragments on the z-level of the box, and the text TODO with the name (of the argument, else of the box) on the following lines; the slide does not get longer. The inner frame is 20 inside of the outer one; the outer one is 3 inside of the content area of the box across its direction, and on all sides if the box has no other contents; the inner frame asks for the size of its text and 20 around it. A name with a broken inline style raises after the frames are drawn, and an object without a name raises before.", "quantifier": "all slides reachable by calls, all boxes and names", "why_tests_cant": "no test of placeholders exists; unbounded trees", "anchors": ["elsie/ext/todo.py:todo_placeholder", "elsie/boxtree/boxmixin.py:BoxMixin.fbox"]}
