#!/usr/bin/env python3
"""Source of properties.jsonl: run `python3 tools/properties.py` to regenerate it."""
import json, os
P = []
def p(id, title, statement, quantifier, why, anchors):
    P.append(dict(id=id, title=title, statement=statement, quantifier=quantifier,
                  why_tests_cant=why, anchors=anchors))

SHOW = "elsie/slides/show.py"
p("C01", "Meaning of fragment selectors",
  "For any `show` string made of comma separated selectors (N, N+, N-M, next, next+, next-M, last, last+, last-M) with any surrounding white space, if box(show=...) accepts it then the box is visible in fragment k exactly when at least one of the selectors covers k.",
  "all finite selector lists, all numbers, all white space paddings, all current fragments, all fragments k",
  "the selector grammar and the fragment numbers are unbounded",
  [SHOW + ":ShowInfo.parse", SHOW + ":ShowInfo.is_visible", SHOW + ":replace_relative_steps"])
p("C02", "Fragment selectors are accepted exactly when well formed",
  "box(show=s) accepts the string s exactly when s is a comma separated list of well formed selectors with at most one open (+) selector, no reversed range, and a known current fragment whenever next/last is used; every other string is rejected with an exception.",
  "all Unicode strings and all current fragments",
  "rejection must be checked for every string, not for a few malformed samples",
  [SHOW + ":ShowInfo.parse", SHOW + ":ShowInfo.parser"])
p("C03", "Number of fragments equals the highest fragment mentioned",
  "After any sequence of successful box/image/item calls on a slide, the number of pages the slide renders equals current_fragment(), which equals the maximum of 1 and of every fragment number any call mentioned (open start, range ends, image steps), and it never decreases. 'next' resolves to current+1 and 'last' to current at the time of the call.",
  "all histories of slide building calls",
  "it is an invariant of unbounded call histories",
  ["elsie/slides/slide.py:Slide.steps", "elsie/slides/slide.py:Slide.current_fragment", "elsie/boxtree/boxmixin.py:BoxMixin.box", "elsie/boxtree/box.py:Box._ensure_steps"])
p("C04", "Hierarchical visibility",
  "A drawing item is painted on page k of a slide exactly when its box and every ancestor box are visible in fragment k, and then it is painted exactly once.",
  "all box trees, all fragments",
  "trees have unbounded depth and width",
  ["elsie/boxtree/box.py:Box.get_painters"])
p("C05", "Paint order",
  "On each page the painted items appear in non-decreasing z_level order, and items of equal z_level keep the depth first order of the box tree (children in child order).",
  "all box trees and z levels",
  "unbounded trees and permutations",
  ["elsie/render/backends/svg/backend.py:InkscapeBackend.create_render_unit", "elsie/render/backends/cairo/backend.py:CairoBackend.create_render_unit", "elsie/boxtree/box.py:Box.get_painters"])
p("C06", "Placement of a new child",
  "A new box is inserted directly before `below`, directly after `above`, first with prepend=True, otherwise last, among its parent's children; the relative order of all existing children is unchanged; both `above` and `below`, or a reference that is not a child, raise.",
  "all child lists and all references",
  "unbounded child lists",
  ["elsie/boxtree/box.py:Box.add_child"])
p("C07", "A rejected box() call leaves the slide unchanged",
  "If a call of box() raises, the slide is as it was before the call: same boxes, same layout, same current fragment.",
  "all slide states and all argument combinations that raise",
  "needs all failure points of all calls in all states",
  ["elsie/boxtree/boxmixin.py:BoxMixin.box", "elsie/boxtree/layout.py:Layout.add", "elsie/boxtree/box.py:Box.add_child"])
VAL = "elsie/boxtree/value.py"
p("C08", "Size argument grammar",
  "A width/height string is accepted exactly when it is NN, NN%, fill or fill(NN) (decimal digits), and then denotes a minimal size of NN pixels, NN/100 of the parent, one share, or NN shares respectively; numbers and lazy values are taken as they are; anything else raises.",
  "all strings and argument kinds",
  "unbounded strings",
  [VAL + ":SizeValue.parse"])
p("C09", "Position argument grammar and meaning",
  "A position string is accepted exactly when it is NN, NN% or [NN%]. NN places the box NN pixels from the parent's origin, NN% at that fraction of the parent's extent, and [NN%] aligns it: [0%] flush with the start, [50%] centred, [100%] flush with the end, and for 0..100 a box that is not larger than the parent stays inside it.",
  "all strings, all parent origins, extents and box sizes",
  "unbounded strings and real valued geometry",
  [VAL + ":PosValue.parse", VAL + ":PosValue.compute"])
LAY = "elsie/boxtree/layout.py"
p("C10", "Filling children tile their parent",
  "If at least one stacked child of a box has fill size along the main axis (and none has a lazy size), the stacked children are laid out in order, without gaps or overlaps, from the start to the end of the content area, and the fill children share what the others leave in the ratio of their fill factors.",
  "all layout trees, all rectangles, both axes",
  "unbounded number of children and real valued sizes",
  [LAY + ":Layout.set_rect", VAL + ":SizeValue.compute"])
p("C11", "Stacked children are contiguous and centred",
  "If no stacked child has fill size (and none has a lazy size), the stacked children are contiguous in child order along the main axis and the free space before the first equals the free space after the last.",
  "all layout trees, all rectangles, both axes",
  "unbounded number of children and real valued sizes",
  [LAY + ":Layout.set_rect"])
p("C12", "Cross axis placement and size of children",
  "Every child gets, along each axis, exactly the documented size (fixed or content minimum, percentage of the parent's content area but at least the minimum, whole cross extent for fill, the lazy value) and, when its position on the axis is given, exactly the documented position computed from the parent's content area on the SAME axis; otherwise on the cross axis it is centred.",
  "all layout trees, rectangles, positions and sizes, both orientations",
  "real valued geometry over unbounded trees",
  [LAY + ":Layout.set_rect", VAL + ":PosValue.compute"])
p("C13", "width/height are minimal sizes",
  "A box whose size is given as a number or a percentage, or not given, always ends up at least as large as requested and at least as large as its stacked children and its own text/image require (before padding is taken off).",
  "all layout trees and rectangles",
  "unbounded trees",
  [LAY + ":Layout.compute_size_request", LAY + ":Layout.min_children_size", VAL + ":SizeValue.ensure"])
p("C14", "A fill box is never smaller than its content",
  "A box of size fill is at least as large as its content requires.",
  "all layout trees and rectangles",
  "unbounded trees",
  [LAY + ":Layout.set_rect"])
p("C15", "Padding",
  "The content area of a box is its allotted rectangle minus the four paddings, each padding resolves as the specific value, else the axis value, else the common value, else 0, and the box asks its parent for its content plus padding.",
  "all padding arguments, rectangles and trees",
  "all combinations over reals",
  [LAY + ":Layout.add", LAY + ":_set_padding", "elsie/utils/geom.py:Rect.shrink"])
p("C16", "Stacked boxes of natural size never leave their parent or overlap",
  "In a tree whose boxes have number/default sizes, default positions and non negative paddings, if the slide is at least as large as the root's request then every box lies inside its parent's content area, at every depth, and siblings do not overlap.",
  "all such trees, arbitrary depth",
  "induction over unbounded trees",
  [LAY + ":Layout.set_rect", LAY + ":Layout.compute_size_request"])
p("C17", "Overlay covers the parent and disturbs nothing",
  "overlay() gives a box that covers exactly the parent's content area, and adding any explicitly positioned child leaves the rectangles of all other descendants unchanged.",
  "all layout trees and rectangles",
  "unbounded trees",
  ["elsie/boxtree/boxmixin.py:BoxMixin.overlay", LAY + ":Layout.set_rect"])
p("C18", "Moving a parent moves its content rigidly",
  "Translating the rectangle given to a box translates every descendant rectangle by the same vector and changes no size (boxes without lazy values).",
  "all layout trees, rectangles, vectors",
  "unbounded trees over reals",
  [LAY + ":Layout.set_rect"])
p("C19", "Dynamic positions resolve to the final rectangle",
  "A value obtained from box.x(v)/box.y(v)/box.p(x,y) used as position or size of a box that is laid out later resolves to the final rectangle of the referenced box; if the referenced box is laid out later, the first render raises.",
  "all layout trees, all references, all first renders",
  "depends on the evaluation order over unbounded trees",
  ["elsie/boxtree/lazy.py:LazyValue", LAY + ":Layout.x", LAY + ":Layout.set_rect"])
p("C20", "Rendering twice gives the same layout",
  "Preparing (rendering) a slide a second time, without changing it, gives the same rectangles and text scales as the first time.",
  "all slides, any number of renders",
  "state carried between renders over unbounded trees",
  ["elsie/slides/slide.py:Slide.prepare", LAY + ":Layout.set_rect", "elsie/text/textboxitem.py:TextBoxItem.__init__"])
p("C21", "scale_to_fit fills the box",
  "With scale_to_fit=True the rendered text has the aspect ratio of the unscaled text, is not larger than the box in either direction, and touches the box in at least one direction.",
  "all text sizes and boxes",
  "real valued",
  ["elsie/text/textboxitem.py:TextBoxItem.__init__"])
p("C22", "Images keep their aspect ratio and fit the box",
  "Without explicit scale an image is drawn with its own aspect ratio, centred in the box, not larger than the box, and as large as possible; with explicit scale it is drawn centred with exactly that scale. A box without size arguments asks for the image size (plus padding); a box with only one size given asks for the other so that the ratio is kept.",
  "all image and box sizes",
  "real valued",
  ["elsie/boxtree/boxmixin.py:scaler", "elsie/boxtree/boxmixin.py:BoxMixin._image_bitmap", LAY + ":Layout.set_image_size_request"])
TP = "elsie/text/textparser.py"
p("C23", "Plain text is shown as written",
  "Text without the escape character is shown verbatim, line by line; only trailing newlines are dropped, and the number of lines the layout reserves equals the number of lines shown.",
  "all strings",
  "all strings",
  [TP + ":parse_text", TP + ":normalize_tokens", TP + ":number_of_lines", TP + ":tokens_to_text_without_style"])
p("C24", "Inline styles parse back",
  "For every nesting of inline styles ~name{...}, parsing the marked up text gives exactly that nesting and that text (up to dropped trailing newlines and newlines moved out of a closing style).",
  "all styled documents of any depth, all escape/begin/end characters",
  "unbounded nesting",
  [TP + ":parse_text", TP + ":normalize_tokens"])
p("C25", "Parsed text is balanced, bad text is rejected",
  "parse_text either raises, exactly when some inline style is never closed, or returns tokens whose begin/end markers are balanced, with no empty text tokens, no newline inside a text token, no two adjacent newline tokens, and no trailing newline.",
  "all strings and delimiter characters",
  "all strings",
  [TP + ":parse_text", TP + ":normalize_tokens"])
p("C26", "Doubling the escape character escapes it",
  "As documented, '~~' in a text stands for the character '~' (and text(...) accepts it).",
  "all strings",
  "all strings",
  [TP + ":parse_text", "docs/userguide/text.md"])
p("C27", "Line extraction for inline boxes",
  "For any balanced token list and any position, the extracted line contains exactly the text of that line, with exactly the styles that are open, is balanced, and the returned index points to the original token.",
  "all balanced token lists and positions",
  "unbounded token lists",
  [TP + ":extract_line", TP + ":_open_blocks"])
p("C28", "Line numbers",
  "With line_numbers=True every line of the snippet is prefixed by its number, counted from 1, all numbers padded to the same width; nothing else of the text or the number of lines changes, and styles stay balanced.",
  "all token lists",
  "unbounded",
  [TP + ":add_line_numbers"])
p("C29", "Merging highlighting and inline styles keeps the text",
  "tokens_merge of two balanced token lists with the same text never fails, keeps exactly that text (up to trailing newlines), and is balanced.",
  "all pairs of balanced token lists with equal text",
  "unbounded pairs of nestings",
  [TP + ":tokens_merge", TP + ":_tokens_merge_helper"])
p("C30", "Merging gives each character the styles of both sources",
  "In the merged text every character carries exactly the styles it carries in the first list plus those it carries in the second.",
  "all pairs of balanced token lists with equal text",
  "unbounded pairs of nestings",
  [TP + ":tokens_merge"])
p("C31", "trim_indent",
  "trim_indent removes the same number of leading characters from every line, as many as possible without touching a non blank character, keeps the number of lines, and is idempotent; it raises exactly when there is no non blank line.",
  "all strings",
  "all strings",
  [TP + ":trim_indent"])
p("C32", "code() shows the code",
  "For any tokenisation by the highlighter whose token texts concatenate to the code, code(language, ...) shows exactly the code, line by line, tabs expanded, with leading newlines kept and trailing newlines dropped, with the requested inline styles balanced.",
  "all codes and all tokenisations",
  "the highlighter is external: must hold for every tokenisation",
  ["elsie/boxtree/boxmixin.py:BoxMixin.code", "elsie/text/highlight.py:MyFormatter.format"])
TBI = "elsie/text/textboxitem.py"
p("C33", "Line boxes cover the lines they name",
  "line_box(i, n) starts at the top of line i of the rendered (possibly scaled, centred) text and spans n line heights (plus one pixel); consecutive lines tile the text from its top to its bottom.",
  "all texts, rectangles, scales, line indices",
  "real valued, unbounded lines",
  [TBI + ":TextBoxItem.line_box"])
p("C34", "Inline boxes sit on the right line and occurrence",
  "inline_box(style, n) refers to the n-th occurrence of the style in reading order, raises exactly if there are fewer, and is vertically identical to the line_box of the line in which that occurrence starts.",
  "all token lists, style names and n",
  "unbounded",
  [TBI + ":TextBoxItem.inline_box", TBI + ":TextBoxItem._text_box_helper"])
p("C35", "Cairo measures exactly the styled range",
  "With the Cairo backend the measured byte range of an inline box is exactly the UTF-8 range of the text enclosed by that style.",
  "all balanced single line token lists and positions",
  "unbounded nesting",
  ["elsie/render/backends/cairo/text.py:get_byte_range"])
TS = "elsie/text/textstyle.py"
p("C36", "Style composition",
  "a.compose(b) takes every attribute from b where b specifies it and from a otherwise, changes neither a nor b, and composition is associative with the empty style as identity.",
  "all styles",
  "all attribute combinations",
  [TS + ":TextStyle.update", TS + ":TextStyle.compose"])
p("C37", "Style scoping",
  "Setting or updating a style on a box changes what is seen in that box and in boxes created from it afterwards, and nothing in any other box (parents, siblings, children created before, other slides), for any history.",
  "all histories of box creation and style operations",
  "unbounded histories with aliasing",
  ["elsie/text/stylecontainer.py:StyleContainer", "elsie/boxtree/boxmixin.py:BoxMixin.box", "elsie/slides/slidedeck.py:SlideDeck.new_slide"])
p("C38", "Returned styles are private copies",
  "Mutating a TextStyle obtained from or passed to a style container does not change any style stored in the container.",
  "all histories including mutations of style objects",
  "aliasing over unbounded histories",
  ["elsie/text/stylecontainer.py:StyleContainer.set_style", "elsie/text/stylecontainer.py:StyleContainer.get_style", TS + ":compose_style"])
p("C39", "SVG text is well nested XML",
  "Drawing any balanced text with known styles in SVG succeeds and emits well nested markup that closes everything it opened.",
  "all balanced token lists and style dictionaries",
  "unbounded nesting",
  ["elsie/render/backends/svg/draw.py:draw_text"])
p("C40", "Style priority",
  "An inline style takes effect exactly when its priority is at least that of the innermost enclosing effective style, in both backends.",
  "all balanced token lists and style dictionaries",
  "unbounded nesting",
  ["elsie/render/backends/svg/draw.py:draw_text", "elsie/render/backends/cairo/text.py:get_text_and_attributes"])
X = "elsie/utils/sxml.py"
p("C41", "Text is escaped",
  "Any text written to the SVG is read back by an XML reader as the same text (spaces as non breaking spaces), and contains no markup.",
  "all strings",
  "all strings",
  [X + ":escape_text", X + ":Xml.text"])
p("C42", "Attribute values are escaped",
  "Any attribute value written to the SVG is read back by an XML reader as that value.",
  "all strings",
  "all strings",
  [X + ":Xml.set"])
p("C43", "The XML writer only produces well nested documents",
  "Any sequence of writer calls either raises or, when to_string() succeeds, has produced properly nested elements, each closed once with its own name, attributes only inside start tags.",
  "all call sequences",
  "unbounded call histories",
  [X + ":Xml"])
DECK = "elsie/slides/slidedeck.py"
p("C44", "Name policies",
  "Under policy unique no two slides ever have the same name and a clash raises and changes nothing; under replace a new slide removes the previous slide of that name, keeps all others in order and is appended, so names stay unique; under ignore every slide is kept.",
  "all histories of new_slide calls",
  "unbounded histories",
  [DECK + ":SlideDeck._apply_name_policy", DECK + ":SlideDeck.new_slide"])
p("C45", "Slide indices identify slides",
  "No two slides of a deck have the same index (the index names the debug files), and named slides can be created whatever was added before (slides or PDFs).",
  "all histories of new_slide/add_pdf calls",
  "unbounded histories",
  [DECK + ":SlideDeck.new_slide", DECK + ":SlideDeck.get_slide_by_name", DECK + ":SlideDeck.add_pdf", "elsie/render/render.py:SvgRenderUnit.write_debug"])
p("C46", "Pages of the output",
  "render() produces, in slide order, exactly one page for each fragment 1..n of each selected slide, and nothing else.",
  "all decks and selections",
  "unbounded decks",
  [DECK + ":SlideDeck.render"])
p("C47", "Several slides per page",
  "With slides_per_page the pages contain all slides in order, each exactly once, at most columns*rows per page, all pages but the last full, no two slides of a page in the same cell, and all cells inside the page.",
  "all unit lists and grid sizes",
  "unbounded lists",
  ["elsie/render/render.py:per_page_grouping"])
BE = "elsie/render/backends/svg/backend.py"
p("C48", "The query cache is transparent",
  "Whatever the history of queries, renders, prunes, saves and restarts with the same versions, a text measurement always returns what Inkscape returns for that query; entries of another Elsie or Inkscape version are never used.",
  "all histories across process restarts",
  "unbounded histories",
  [BE + ":InkscapeBackend.process_query", BE + ":InkscapeBackend._load_query_cache"])
p("C49", "The query cache keeps what the presentation uses",
  "After a render, the saved query cache holds every measurement that the presentation used, so the next run recomputes none of them.",
  "all histories of queries and renders",
  "unbounded histories",
  [BE + ":InkscapeBackend.prune_cache", BE + ":InkscapeBackend.save_cache"])
FC = "elsie/utils/cache.py"
p("C50", "The file cache returns valid files",
  "In any sequential history of cache operations, the path returned by the cache names an existing file that holds what the constructor makes of the input.",
  "all sequential histories, including prunes",
  "unbounded histories",
  [FC + ":FsCache.ensure", FC + ":FsCache.get", FC + ":FsCache.remove_unused"])
p("C51", "Pruning removes exactly the unused entries and can be repeated",
  "remove_unused deletes exactly the cache files that were not used since the deck was created, never a used one, and may be called again (render twice) without failing.",
  "all sequential histories",
  "unbounded histories",
  [FC + ":FsCache.remove_unused", DECK + ":SlideDeck.render"])
p("C52", "Concurrent cache requests",
  "When several threads request the same entry, the constructor runs at most once, every request returns after it is complete, and no thread is blocked for ever, under every interleaving.",
  "all numbers of threads and all interleavings",
  "interleavings cannot be enumerated by tests",
  [FC + ":FsCache.ensure"])
p("C53", "Cache crash safety",
  "If the process is killed at any point while building a cache entry, a later run never returns an incomplete file.",
  "all crash points",
  "crash points",
  [FC + ":FsCache.__init__", FC + ":FsCache.get"])
p("C54", "Inkscape shell protocol",
  "For every command whose output contains no prompt, run_command returns the last line of that output and leaves the following output unread; if the Inkscape process ends, the call returns or raises.",
  "all outputs",
  "all byte streams",
  ["elsie/render/inkscape.py:InkscapeShell.wait_for_prompt", "elsie/render/inkscape.py:InkscapeShell.run_command"])
IM = "elsie/render/image.py"
p("C55", "Fragments inside SVG images",
  "Fragment k of an SVG image keeps exactly the elements such that neither they nor an ancestor below the root are labelled with a selector that excludes k; order and nesting are unchanged, the source image is not modified, and the number of fragments is the largest number in a label.",
  "all SVG trees, labels and fragments",
  "unbounded trees",
  [IM + ":create_image_data", IM + ":get_image_steps", SHOW + ":ShowInfo.from_label"])
p("C56", "Which image fragment is drawn on which page",
  "An image with show_begin b is drawn on no page before b; without selection page k shows image fragment k-b+1, and with select_fragments page k shows the entry number k-b+1 of the list, or nothing if it is None or outside the list.",
  "all show_begin, selections, pages",
  "unbounded",
  ["elsie/boxtree/boxmixin.py:BoxMixin._image_svg"])
UT = "elsie/render/backends/svg/utils.py"
p("C57", "Renaming ids keeps references",
  "Renaming the ids of an embedded SVG appends the suffix to every id and every reference '#id' in an attribute is changed to the renamed id, so references resolve as before and ids of differently suffixed documents are disjoint.",
  "all SVG trees and ids",
  "unbounded trees and id sets",
  [UT + ":rename_ids", "elsie/ext/latex.py:_render_latex"])
p("C58", "SVG units",
  "svg_size_to_pixels converts NN, NNpx, NNmm, NNcm, NNpt and NNin to CSS pixels (96 per inch).",
  "all numbers and unit suffixes",
  "all strings",
  [UT + ":svg_size_to_pixels"])
SH = "elsie/render/backends/cairo/shapes.py"
p("C59", "Quadratic curves are drawn exactly",
  "The cubic curve drawn for a quadratic Bezier segment is, for every parameter value, the same point.",
  "all control points and parameters",
  "real valued",
  [SH + ":draw_quadratic_bezier"])
p("C60", "Paths mean the same in Cairo and in SVG",
  "For every path accepted by path(), the Cairo backend draws the segments that the SVG specification assigns to that path.",
  "all command lists",
  "unbounded command lists",
  [SH + ":draw_path", "elsie/shapes/path.py:check_and_unpack_path_commands"])
p("C61", "Arrow geometry",
  "Shortening or extending a segment keeps its direction and start and changes its length by exactly the given amount (for segments of positive length); the two wings of an arrow head are at distance `size` from the tip and symmetric about the line.",
  "all real segments, sizes and angles",
  "real valued",
  ["elsie/utils/geom.py:segment_resize", "elsie/shapes/arrow.py:Arrow.render"])
LI = "elsie/ext/list.py"
p("C62", "List numbering",
  "The n-th item of a (sub)list with start s carries the counters of the enclosing lists at creation time of the sublist followed by s+n-1; creating items in one list never changes the counters of another list already created.",
  "all histories of item/ul/ol calls",
  "unbounded histories with shared lists",
  [LI + ":ListBuilder"])
p("C63", "List indentation",
  "A sublist is indented by the specified amount of pixels relative to its parent list.",
  "all nestings and indents",
  "unbounded nesting",
  [LI + ":ListBuilder._create_box"])
p("C64", "Fragment navigation in notebooks",
  "For any click sequence the shown fragment is always between 1 and the number of fragments, next/previous move by one and stop at the ends, where the buttons are disabled.",
  "all click sequences",
  "unbounded histories",
  ["elsie/render/jupyter.py:get_javascript"])
p("C65", "Markdown inline markup",
  "For every tree of emphasis/strong/link nodes the shown text is the text of the markdown nodes and every character carries exactly the styles of its enclosing nodes.",
  "all inline trees",
  "unbounded trees",
  ["elsie/ext/markdown.py:get_raw_text", "elsie/ext/markdown.py:MarkdownContext.wrap_text_with_style"])
p("C66", "ORA layers",
  "An ORA image is converted to an SVG whose drawing order is the bottom to top layer order, that contains exactly the non empty layers that are visible together with all enclosing stacks, well nested.",
  "all layer stacks",
  "unbounded trees",
  ["elsie/render/ora.py:_children_to_svg"])
if __name__ == "__main__":
    extra = os.path.join(os.path.dirname(__file__), "properties_extra.py")
    if os.path.exists(extra):
        exec(open(extra).read())
    out = os.path.join(os.path.dirname(__file__), "..", "properties.jsonl")
    with open(out, "w") as f:
        for q in P:
            f.write(json.dumps(q, ensure_ascii=False) + "\n")
    print(len(P), "properties")
