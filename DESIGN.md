# Formal model of elsie: design

## Method

The Python code of /repo/elsie is transcribed by hand, function by function, into
executable Gallina definitions (Coq 8.16.1, standard library only). Every model
definition carries a comment citing the file and lines it models and the
simplifications made. Files come in groups, one group per area:

* `XModel.v`: transcription of the code, no proofs;
* `XSpec.v`: small independent specification (what the user expects), which does
  not call the model's helpers;
* `XProofs.v`: lemmas;
* `XProps.v`: the property theorems (closed by `exact`), with the concrete
  non-vacuity `Example`s next to them and `Print Assumptions` below.

Conventions of the model:

* **Exceptions are values**: `result A := Ok a | Err exn`. `raise`, failed `assert`,
  `IndexError`, `KeyError`, ... are different constructors of `exn`. Where a call
  mutates state and then raises, the model returns the mutated state beside the error.
* **Strings** are lists of Unicode code points (`list N`). `\d`, `int()`,
  `str.strip`, `str.isspace`, `str.splitlines` use the concrete Unicode tables of
  CPython 3.11 (generated into `Unicode.v`).
* **Numbers** in the layout are exact rationals (`Q`); floating point rounding is not
  modelled ("in exact arithmetic"). Square roots and trigonometry (arrows) use
  Coq's `R`, which brings in the standard library axioms of the reals.
* **Mutable objects** (style dictionaries, rectangles, list counters) are explicit
  stores where aliasing matters.
* **External things** (Inkscape, pygments, hash functions, PDF mergers, the file
  system's content) are universally quantified parameters (functions or relations) of
  the theorems, never axioms.
* **Concurrency and crashes** are small-step transition relations; theorems are about
  all reachable states.

If the code violates the property as a user would state it, the property is kept in
full, and we prove (a) `..._refuted`: a concrete reachable counterexample, and (b) the
strongest true restriction, suffix `_partial`, with the missing part named.

## Plan per property

| id | model | proof |
|----|-------|-------|
| C01 | `ShowInfo.parse`, regex as a recogniser over code points | parse of any rendered selector list, visibility by induction over the list |
| C02 | same | soundness and completeness of the recogniser against an inductive grammar |
| C03 | slide state = box tree + layout tree + max_step, operations box/image/item | invariant over all histories |
| C04 | `get_painters` over an inductive box tree | induction over the tree, positions in the tree as witnesses |
| C05 | stable sort of painters (`sorted(key=z_level)`) | sortedness + stability (filter by level commutes) |
| C06 | `Box.add_child` | list insertion lemmas |
| C07 | `BoxMixin.box` with partial effects | refuted (bad `show` after the layout was registered), partial: bad sizes, positions |
| C08 | `SizeValue.parse` | recogniser vs grammar; `fill(3)))` accepted: refuted + partial |
| C09 | `PosValue.parse/compute` | recogniser vs grammar, field arithmetic |
| C10-C12 | `Layout.set_rect` over an inductive tree, rationals | induction over the child list; C12 vertical proved, horizontal `y` refuted (uses width) |
| C13, C14 | `compute_size_request`, `SizeValue.ensure/compute` | arithmetic; C14 refuted |
| C15 | `_set_padding`, `Rect.shrink` | case analysis + arithmetic |
| C16 | as C10 | induction over the tree |
| C17 | as C10 | induction; list insertion of unmanaged children |
| C18 | as C10 | induction over the tree, setoid equality of rationals |
| C19 | `LazyValue` as function of the rectangle store | invariant of the store while set_rect runs |
| C20 | `prepare` with callbacks | idempotence without scale_to_fit; with it boxes and room stay and the scale becomes 1 |
| C21 | scaling callback | field arithmetic |
| C22 | `ImageModel.v`: `scaler`, `place`, `set_image_size_request` | field arithmetic; refuted for boxes with a side 0 and for padding |
| C23-C25 | `parse_text`, `normalize_tokens`, `number_of_lines` | loop invariants, induction over strings and document trees |
| C26 | same | refuted (documentation promises it, the parser has no such case) |
| C27, C28 | `extract_line`, `add_line_numbers` | induction over token lists |
| C29, C30 | `tokens_merge` | invariants of the two-stack merge; C30 refuted + flat partial |
| C31 | `trim_indent` | list induction |
| C32 | `BoxMixin.code` with the lexer as a universally quantified token stream | composition of C24, C28, C29 |
| C33, C34 | `line_box`, `inline_box`, `_text_box_helper` | arithmetic, induction over tokens |
| C35 | `get_byte_range` | refuted for nested styles, partial for innermost ones |
| C36-C38 | `TextStyle.update`, `StyleContainer` over a heap | case analysis; heap invariants over histories; C36 priority refuted; C38 refuted for set_style |
| C70 | style constructors and setters | case analysis, invariant over histories |
| C71 | `line_box` in the layout | C12; refuted in horizontal boxes |
| C39, C40 | `draw_text` of the SVG backend emitting to the `Xml` writer; Cairo attributes | stack invariant; refuted for multi-line dummy styles; priority restore refuted |
| C41-C43 | `Xml` writer and an independent XML reader | reader/writer round trip by induction; C42 refuted for quotes |
| C72 | `Xml` writer | same round trip for all balanced call sequences; duplicate attributes refuted |
| C69 | both text drawing models | same effective styles on both sides; refuted for switching bold off, `#` styles |
| C44, C45, C73 | `DeckModel.v`: deck state, `new_slide`, `add_pdf`, policies | invariants over histories; C45 refuted under replace and after PDFs; C73 refuted for auto |
| C46, C47, C74 | `render` as a trace of effects, `per_page_grouping` | list induction, pages read back; C47 refuted with external PDFs; C74 refuted for measurements |
| C48, C49, C76 | `QueryModel.v`: query cache with prune/save/restart/kill | invariant over histories; C49 refuted for two renders; C76 refuted |
| C50, C51, C77 | `FsModel.v`: `FsCache` for one thread, sessions, failures | invariant; refuted after prune |
| C52 | `ConcModel.v`: small steps of `FsCache.ensure` in any number of threads | invariants over all schedules; refuted for equal entries |
| C53 | crash points of `ensure` | refuted, partial |
| C54, C75 | `InkModel.v`: prompt reader, commands, an arbitrary Inkscape process | induction over the stream and the conversation; EOF refuted; C75 refuted for failing queries |
| C55, C56 | `ImageModel.v`: element trees with identities, documents in memory, the page callback | tree induction; C55 refuted for text after excluded elements; C56 refuted for images of one fragment |
| C57 | `rename_ids` with `str.replace` | induction over strings and trees; refuted for prefix ids and two references |
| C58 | `svg_size_to_pixels`, `isalpha` and `float` as parameters | induction; refuted for `in` |
| C78 | `BoxMixin.image`, the dispatch on the file name | suffixes |
| C59 | `ShapeModel.v`: degree elevation, `draw_quadratic_bezier` | ring, parameter by parameter |
| C60 | `draw_path` on a model of the Cairo context, against a small semantics of SVG paths (`ShapeSpec.v`) | loop invariant; refuted for consecutive S, several groups, commands without points, paths without a first M |
| C61, C83 | `segment_resize`, `Arrow.render`, `path_points_for_end_arrow` | real analysis (R); derivative of the last piece; refuted for shortening beyond the length and for T |
| C79, C80 | draw_rect/ellipse/polygon/polyline/path of both backends; the SVG calls are read back as an element with attributes, style and transform | outlines compared piece by piece under the matrix, invariant over sequences of shapes; refuted: open polygons, dashes with commas, dashes left by ellipses, point left by texts |
| C81 | `apply_viewbox` | the default preserveAspectRatio as a specification with a unique solution |
| C82 | `rounded_rectangle` | distance of the curve to the arc for all parameters; refuted for two corners, for one zero radius |
| C62, C63, C84 | `ListModel.v`: `ListBuilder` on top of the slide model | invariants over histories; C63 refuted for items, closed form proved |
| C64 | `JupyterModel.v`: page, panels and scripts | invariant over all displays and clicks |
| C65 | `MarkdownModel.v`: inline trees printed with escapes + `parse_text` | induction (C24); refuted for braces, code spans, escape characters |
| C85-C87 | `MarkdownModel.v`: blocks on top of the list and slide models | induction over blocks with a box tree that has two growing places (the item and the list around); order refuted for text after a sublist; C86 refuted after the first fragment |
| C88 | `PicModel.v`: `draw_bitmap`, `draw_svg` of both backends, from the arguments of `image()` (`ImageModel.place`) | maps from picture points to the surface compared with one closed formula (`PicSpec.spot`); transformation lists read back; refuted for view boxes and scale 0 |
| C89 | `latex_args` + `draw_svg` | same; refuted with Cairo in larger boxes |
| C90 | `draw_text` of both backends: position, scale, rotation, line distance | same, glyph by glyph; line distance refuted for scaled texts |
| C91 | `PageModel.v`: calls of a rendering context, their XML calls, `svg_begin`, `render_page` | the writer's forests (C43) inside one element, read back by the reader of C72; each call shown to have the elements asked for; with C04/C05 for slides; refuted for control characters |
| C92 | same + `ShapeModel.v`; `MixModel.v`: the calls of the Cairo context one after another | C80 linked to the nodes that are read from the document; texts and pictures only leave a current point, which shapes that begin with a move do not see |
| C93 | `ShortModel.v`: `overlay`, `fbox`, `sbox` | keywords looked up in a small table; layouts of a box and its child kept by all later calls, then C12/C17/C10 |
| C94 | `DebugModel.v`: `get_painters` with the depth of frames; `PageModel.v`: `frame_item` | a stable insertion sort commutes with filters and keeps the order of ordered pairs; C91 for the document |
| C95 | `PageModel.v`: `line_item`, `path_item`, `arrow_item`; `ShapeModel.v`: `draw_line`, `draw_path_arrow` | C61 and C83 for each end; the calls of an item are the shapes that Cairo draws |
| C96 | `SlideModel.v` with C10, C12, C13, C15, C21 | invariant over histories of calls (`RoomProofs.v`: layouts only grow, texts keep their sizes) |
| C97 | `MeasureModel.v`: `_text_query`, `compute_query` with `draw_text` and an id | marks of characters carried through the stack invariant of C39 (`DrawLoop.v`), ids counted along the calls; read back as in C72; lines as in C27 |
| C98 | `InlineModel.v`: `build_layout`, `compute_subtext_extents`, `draw_text` of Cairo, Pango a parameter | attributes per character (C40) are the same on the line taken out (C27) and in the text, so Pango shapes both alike; then C35 and C34 |
| C99 | `ThemeModel.v`: `make_highlight_styles`, the styles of `SlideDeck.__init__`; `code()` of `TextModel.v` | if all priorities are 0, the glyphs of C39/C40 are the styled characters of C32 with the styles of their names (induction over the tokens) |
| C100 | `ExportModel.v`: `pdfmerge.py`, `export_pptx`, `get_slide_repr_steps` over `render` of `DeckModel.v` | from C46 and C64; the PDF tools are specified by what they do with pages |
| C101 | `PlaceModel.v`: `LazyPoint`, `x/y/p/mid_point`, `unpack_point`, the shape calls on slides with their drawing functions | from the layout invariants (C12, C15, C68): every box has a rectangle after `prepare`; pages from C91 |
| C102 | `ArtModel.v`: `text`, `image` and the shape calls on whole slides, each with the drawing it leaves for `get_painters` | `art_item` composes the models of C20, C55 and C101; `areach` keeps the rectangles from C96 and C101; pages from C92 |
| C103 | `MdLookModel.v`: the style calls of `markdown()` on the store of `StyleModel.v` (shared dictionaries and style objects); `C103_same_texts` ties it to `MarkdownModel.v` | worlds only get more (`more`), containers stand at places (`stands`); induction over blocks |
| C104 | `TodoModel.v`: `todo_placeholder()` as calls of fbox(), rect() and text() on the slide of `SlideModel.v`; colours of the rectangles and the style of the text are not in it, the size of the text is an arbitrary function of its tokens | the explicit tree after each call; places by the lemmas of C10 and C12 |
| C66 | `OraModel.v`: `ora.py` as calls of the XML writer, the archive as a function | tree induction, C43; refuted for omitted attributes |

## Trusted base

* Coq's kernel (8.16.1) and, for `vm_compute` in witnesses, its virtual machine.
* `Print Assumptions` under each theorem: "Closed under the global context" except for
  the theorems on `R` (C59-C61, C79-C83, C88-C92, C94, C95, C101, C102), which list the standard library's axioms of the
  reals: `ClassicalDedekindReals.sig_forall_dec`, `ClassicalDedekindReals.sig_not_dec`,
  `FunctionalExtensionality.functional_extensionality_dep` and, where trigonometry or
  derivatives are used, `Classical_Prop.classic`.
* The hand transcription of the Python code (no extraction or automatic translation),
  the CPython semantics of the built-ins used, and the items listed as not modelled.

## Not modelled

PDF writing and merging internals, Inkscape's and Cairo's rasterisation, pygments'
lexers, font measurement, zip/PIL parsing, the CSS of notebooks, progress output, the output
path of `render`, background colours of slides in the deck model. SHA-1 is taken to have no
collisions, `json.load` to give back what `json.dump` wrote; threads switch between the
steps listed in `ConcModel.v`. Shapes: rounding, the approximation of circles inside Cairo,
anti-aliasing, line joins (outlines, matrices and pens are compared, not pixels); the Cairo
calls follow Cairo's documentation; `webcolors`, `float()` and `str()` of numbers are
parameters with the stated hypotheses (what `str` writes is read back, a colour name has no
`;` or spaces, ...). Lists: the text style of items (align left) is left out; a label is a
function on the slide. Markdown: documents are the trees of marko's parser; the
styles (markdown.py:64-81, 103) have a model of their own (`MdLookModel.v`). Notebooks: only the elements that the script selects.
Pictures: cairosvg fits a picture into its area as SVG's preserveAspectRatio demands by
default, and the view box of an SVG picture has the aspect ratio of its size. Texts: Pango
puts the baseline of the first line `get_baseline()` below the corner of the layout and
aligns lines within the width of the layout; two lines are one line height, scaled by the
scale attribute, plus the spacing apart; rounding to Pango units is left out. The positions of
the characters of a line are a function of its characters with their attributes (`shape`).
