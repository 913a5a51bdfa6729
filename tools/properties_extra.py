# Properties found while the model grew; read by properties.py.
p("C67", "The layout tree mirrors the box tree",
  "After any sequence of successful box/item calls every box has exactly one layout and the layout of a box is a child of the layout of its parent box; no other layouts exist.",
  "all histories of slide building calls",
  "an invariant of two trees over unbounded histories",
  ["elsie/boxtree/boxmixin.py:BoxMixin.box", "elsie/boxtree/box.py:Box.add_child", "elsie/boxtree/layout.py:Layout.add"])
p("C68", "Calls do not disturb other boxes",
  "No call, successful or rejected, removes a box of the slide or changes its z level or the fragments in which it is visible.",
  "all reachable slides and all calls",
  "all states and calls",
  ["elsie/boxtree/boxmixin.py:BoxMixin.box", "elsie/boxtree/box.py:Box._ensure_steps"])
p("C70", "Style attributes are validated",
  "Every style that can be built has only admissible attribute values (strings, numbers or booleans as the attribute demands, one of the listed choices for alignment and numeric variant, None only where it means unspecified); a constructor call or assignment with any other value raises and leaves all styles as they were.",
  "all histories of style calls",
  "all values and histories",
  ["elsie/text/textstyle.py:TextStyle.__init__", "elsie/text/textstyle.py:TextStyle._check_size", "elsie/text/stylecontainer.py:StyleContainer"])
p("C71", "Line boxes span the box of the text",
  "A line box created without x and width has the horizontal position and the width of the box that holds the text.",
  "all layout trees",
  "all trees and rectangles",
  ["elsie/text/textboxitem.py:TextBoxItem.line_box", "elsie/boxtree/layout.py:Layout.set_rect"])
p("C69", "Both backends show the same styles",
  "For every text and every table of styles, each character of the text is shown by the SVG backend with the same font, size, colour, opacity, boldness and slant as by the Cairo backend.",
  "all token lists and style tables",
  "two independent implementations of style nesting over unbounded token lists",
  ["elsie/render/backends/svg/draw.py:draw_text", "elsie/render/backends/cairo/text.py:get_text_and_attributes"])
p("C72", "The XML writer produces well-formed documents",
  "Whatever balanced sequence of element, set, text and close calls is made with names and characters allowed in XML, the resulting string is a well-formed XML document that reads back as exactly the tree that was written.",
  "all balanced call sequences",
  "unbounded trees, against an independent reader",
  ["elsie/utils/sxml.py:Xml"])
p("C73", "Name policy arguments",
  "SlideDeck accepts exactly the documented name policies and each means what is documented; in particular auto means replace inside a notebook and unique elsewhere.",
  "all arguments, and all histories of the decks made with them",
  "the promise of auto is about all later calls",
  ["elsie/slides/slidedeck.py:SlideDeck.__init__"])
p("C74", "A failing render removes nothing from the caches",
  "With prune_cache, unused cache data is removed only by a render that succeeds.",
  "all decks, arguments and failures",
  "all points of failure",
  ["elsie/slides/slidedeck.py:SlideDeck.render"])
p("C75", "Inkscape is left without open documents",
  "Every measurement and every export closes the document that it opened in Inkscape, also if it fails.",
  "all behaviours of Inkscape",
  "all outputs, including wrong ones",
  ["elsie/render/inkscape.py:svg_file_input", "elsie/render/inkscape.py:InkscapeShell.run_query", "elsie/render/inkscape.py:InkscapeShell.convert_to_pdf"])
p("C76", "The query cache survives a crash",
  "Wherever a process is killed, a later one starts.",
  "all histories and crash points",
  "crash points",
  ["elsie/render/backends/svg/backend.py:InkscapeBackend._save_query_cache", "elsie/render/backends/svg/backend.py:InkscapeBackend._load_query_cache"])
p("C77", "A failed build can be repeated",
  "If building a cache entry fails, the error is reported and a later request for the same entry tries again.",
  "all histories",
  "unbounded histories",
  ["elsie/utils/cache.py:FsCache.ensure", "elsie/utils/cache.py:FsCache.get"])
p("C78", "The type of an image",
  "image() takes a file as SVG, ORA, PNG or JPEG exactly if its name ends with the extension of that type, and rejects all other names.",
  "all file names",
  "all names",
  ["elsie/boxtree/boxmixin.py:BoxMixin.image"])
p("C79", "Both backends draw the same shapes",
  "Every rectangle, ellipse, polygon, polyline and path, with any colours, widths, dashes and rotation, has on the Cairo backend the outline, the transformation and the paint that the SVG specification assigns to the element written by the SVG backend.",
  "all shapes, paints, rotations and drawing states",
  "real valued; two independent implementations",
  ["elsie/render/backends/cairo/rcontext.py", "elsie/render/backends/svg/draw.py"])
p("C80", "Shapes do not influence each other",
  "On the Cairo backend what is painted for a shape does not depend on what was drawn before it.",
  "all sequences of shapes",
  "unbounded sequences of state changes",
  ["elsie/render/backends/cairo/draw.py:ctx_scope", "elsie/render/backends/cairo/rcontext.py"])
p("C81", "Viewboxes on the Cairo backend",
  "apply_viewbox maps the viewbox into the given area as SVG does by default: same scale in both directions, the largest that fits, and the content centred.",
  "all areas and viewboxes",
  "real valued",
  ["elsie/render/backends/cairo/draw.py:apply_viewbox"])
p("C82", "Rounded rectangles on the Cairo backend",
  "The outline of a rounded rectangle is the one of SVG: straight sides and four corners that are (nearly) elliptical arcs, with radii at most half the sides; a missing radius is the other one.",
  "all rectangles and radii",
  "real valued",
  ["elsie/render/backends/cairo/draw.py:rounded_rectangle", "elsie/render/backends/cairo/rcontext.py:CairoRenderingContext.draw_rect"])
p("C83", "The arrow of a path continues the path",
  "The arrow head at the end of a path points in the direction in which the path ends.",
  "all paths and arrows",
  "real valued; unbounded paths",
  ["elsie/shapes/path.py:path_points_for_end_arrow", "elsie/boxtree/boxmixin.py:BoxMixin.path"])
p("C84", "When list items are shown",
  "The box of an item or sublist is shown in exactly the fragments that its own show argument names, without one those of the nearest enclosing list that has one, by default from the last fragment of the slide at the moment of the call on; no later call changes this.",
  "all histories of lists, sublists and items, all shows",
  "unbounded nesting and histories",
  ["elsie/ext/list.py:ListBuilder.__init__", "elsie/ext/list.py:ListBuilder.item", "elsie/ext/list.py:ListBuilder._create_sublist", "elsie/ext/list.py:ListBuilder._create_box"])
p("C85", "Markdown keeps the order of the document",
  "markdown() puts every heading, paragraph, blank line, code block and list item label of the document into one new box, each exactly once and in the order of the document, with its text and style.",
  "all documents (trees of blocks), all slides",
  "unbounded nesting of lists and quotes",
  ["elsie/ext/markdown.py:markdown", "elsie/ext/markdown.py:build", "elsie/ext/markdown.py:build_list_top", "elsie/ext/markdown.py:build_quote"])
p("C86", "A markdown document is shown as a whole",
  "All parts of a markdown document are shown in the same fragments, and markdown() adds no fragment.",
  "all documents, all slides and fragments",
  "unbounded nesting; all fragments",
  ["elsie/ext/markdown.py:build_list_top", "elsie/ext/list.py:ListBuilder.__init__"])
p("C87", "Labels of markdown lists",
  "The items of an ordered list of a markdown document are numbered consecutively from the start of the list, whatever is nested in them, without the numbers of the lists around; the items of an unordered list have the bullet of the document.",
  "all documents, all slides",
  "unbounded nesting",
  ["elsie/ext/markdown.py:build_list_top", "elsie/ext/list.py:ListBuilder"])
p("C88", "Both backends place pictures alike",
  "The SVG and the Cairo backend draw an image so that each of its points is in the same place of the slide: the centre of the image in the centre of its box, enlarged by the scale, turned clockwise by the rotation about that centre.",
  "all boxes, image sizes, scales, rotations, view boxes and output formats",
  "real-valued geometry; the backends use different representations",
  ["elsie/boxtree/boxmixin.py:BoxMixin._image_bitmap", "elsie/boxtree/boxmixin.py:BoxMixin._image_svg", "elsie/render/backends/svg/rcontext.py:SvgRenderingContext.draw_svg", "elsie/render/backends/svg/draw.py:draw_bitmap", "elsie/render/backends/cairo/rcontext.py:CairoRenderingContext.draw_bitmap", "elsie/render/backends/cairo/svg.py:CairoSurface"])
p("C89", "LaTeX is centred in its box",
  "latex() draws its picture in the middle of the box, scale times its own size, on both backends.",
  "all boxes, picture sizes and scales",
  "real-valued geometry; needs LaTeX to run",
  ["elsie/ext/latex.py:latex", "elsie/ext/latex.py:_draw", "elsie/render/backends/cairo/svg.py:CairoSurface"])
p("C90", "Both backends place texts alike",
  "The SVG and the Cairo backend draw a text with the same anchor (the point of the first baseline that the alignment selects), the same size of the glyphs, turned about the middle of the box, and with the same distance of lines.",
  "all boxes, alignments, scales, rotations, contexts",
  "real-valued geometry; the backends use different representations",
  ["elsie/text/textboxitem.py:TextBoxItem.render", "elsie/render/backends/svg/rcontext.py:SvgRenderingContext.draw_text", "elsie/render/backends/cairo/rcontext.py:CairoRenderingContext.draw_text", "elsie/render/backends/cairo/text.py:build_layout"])
p("C91", "A page shows its items",
  "The SVG document of a page is well-formed; its root has, for every item that is visible in the step, the elements that the item draws, once, in the order of z-levels, and nothing else.",
  "all slides, steps, items and numbers",
  "unbounded trees and drawings; needs an XML reader of its own",
  ["elsie/render/backends/svg/backend.py:SvgBackend.render_page", "elsie/render/backends/svg/rcontext.py:SvgRenderingContext", "elsie/render/backends/svg/utils.py:svg_begin", "elsie/render/backends/svg/draw.py"])
p("C92", "A page of shapes looks the same in both backends",
  "For every page of shapes, the n-th element of the SVG document describes the outline, fill and stroke that the Cairo backend paints n-th.",
  "all sequences of shapes, all initial matrices",
  "real-valued geometry; unbounded sequences; two different representations",
  ["elsie/render/backends/svg/rcontext.py:SvgRenderingContext", "elsie/render/backends/cairo/rcontext.py:CairoRenderingContext", "elsie/render/backends/cairo/shapes.py"])
p("C93", "Shortcuts for boxes",
  "overlay() puts a box on the whole content area of its parent, sbox() and the lists span it across the stacking direction, fbox() also takes its part of the free space along it; at any later time of the slide, and keywords that are given win over these defaults.",
  "all reachable slides, boxes, keywords and later programs",
  "unbounded trees and call sequences",
  ["elsie/boxtree/boxmixin.py:BoxMixin.overlay", "elsie/boxtree/boxmixin.py:BoxMixin.fbox", "elsie/boxtree/boxmixin.py:BoxMixin.sbox"])
p("C94", "Debug frames only add",
  "With debug_boxes, a page has the same items in the same order; in addition it has one frame for each visible box, painted after the content of the box that is not on a higher level, which shows the outline of the box and a label with its name and size.",
  "all slides, steps and items",
  "unbounded trees; the image is not compared by tests",
  ["elsie/boxtree/box.py:Box.get_painters", "elsie/boxtree/box.py:Box._debug_paint", "elsie/render/backends/svg/backend.py:SvgBackend.create_render_unit"])
p("C95", "Lines and paths with arrows",
  "line() draws its polyline and then the head of the start arrow at the first point and of the end arrow at the last one, each pointing away from the neighbouring point, in the colour of the line; only the ends under a head are moved, to the middle of the head. path() does so at the end of a curve. Both backends draw the same shapes.",
  "all lists of points, arrows, colours",
  "real-valued geometry",
  ["elsie/boxtree/boxmixin.py:BoxMixin.line", "elsie/boxtree/boxmixin.py:BoxMixin.path", "elsie/shapes/arrow.py:Arrow.render", "elsie/shapes/arrow.py:Arrow.move_end_point"])
p("C96", "Texts and images have room on slides",
  "In every slide that the API can build, the root box covers the whole slide, a box that got a text or an image has a content area of at least its size (unless the size of the box is given, 'fill' or lazy), also after any further calls, and a text scaled to fit keeps its ratio, lies inside the content area and fills one of its sides.",
  "all sequences of calls, all texts, images and sizes",
  "unbounded trees and call sequences",
  ["elsie/text/textboxitem.py:36-81", "elsie/boxtree/layout.py:95-104,197-226", "elsie/slides/slide.py:36-56", "elsie/boxtree/boxmixin.py:795-799"])
p("C97", "Inkscape measures the text that is drawn",
  "The document that Inkscape gets to measure a text has the characters of the text with the looks that they have on the page. If the whole text is measured, the element named 'target' is around all characters; if a block is measured, there is exactly one such element, around exactly the characters of the block on its line. The line taken out of the text for an inline box has the same characters inside of its block.",
  "all texts, styles and blocks",
  "tests do not run Inkscape; unbounded texts and nestings of styles",
  ["elsie/render/backends/svg/backend.py:SvgBackend._text_query", "elsie/render/backends/svg/query.py:compute_query", "elsie/render/backends/svg/draw.py:draw_text", "elsie/text/textboxitem.py:TextBoxItem._text_box_helper"])
p("C98", "With Cairo, an inline box covers the characters of its block",
  "The box that inline_box() creates has its left side at the first character of the block as Cairo draws it on the page, and its width is the sum of the widths of the drawn characters of the block, for every alignment and scale and for any line of the text. If the measured width of the line is not the width by which Pango aligns it, the box is off by exactly the share of the difference.",
  "all texts, styles, blocks, slides, scales and alignments",
  "joins parsing, line extraction, byte ranges, layout and drawing; no test draws with Cairo and compares boxes",
  ["elsie/text/textboxitem.py:TextBoxItem.inline_box", "elsie/render/backends/cairo/rcontext.py:CairoRenderingContext.compute_subtext_extents", "elsie/render/backends/cairo/rcontext.py:CairoRenderingContext.draw_text", "elsie/render/backends/cairo/text.py:build_layout"])
p("C99", "Highlighted code has the looks of the theme",
  "A deck can be created with every pygments theme. code() draws every character with the colour, weight and slant that the theme gives to the type of its token, and otherwise with the style of the text, in both backends; line numbers are in the style code_lineno in front of every line and do not change the code. Code with a type of tokens that the theme does not know cannot be drawn.",
  "all themes, lexers, codes and styles of the text",
  "unbounded texts; tests compare a few images",
  ["elsie/text/highlight.py:make_highlight_styles", "elsie/text/highlight.py:MyFormatter.format", "elsie/slides/slidedeck.py:82-103", "elsie/boxtree/boxmixin.py:BoxMixin.code"])
p("C100", "Exports have all pages in order",
  "The document that render() writes has, in order, one page with the drawing for each fragment of each slide and all pages of the PDFs of the deck, with both mergers. A presentation made by export_pptx() has one slide for each fragment, with the picture of the fragment over the whole slide in the ratio of the deck. A slide displayed in a notebook shows exactly the drawing of its current fragment, whatever is clicked, in both formats and with both backends; displaying prunes nothing.",
  "all decks, render arguments, histories of notebook events",
  "unbounded decks and histories; tests export few pages and never to pptx",
  ["elsie/render/pdfmerge.py:ExternalMerger.write", "elsie/render/pdfmerge.py:get_pdf_merger_by_name", "elsie/ext/export.py:export_pptx", "elsie/render/jupyter.py:get_slide_repr_steps", "elsie/slides/slidedeck.py:365-386"])
p("C101", "Shapes are at the boxes and points they refer to",
  "A lazy value or point made by x(), y(), p(), mid_point() and add() at any time stands for the place of its box in the final layout, however the slide was changed later. rect() and ellipse() draw the content area that their box has in the end; polygon(), line() and path() go through the places of their points, in order; numbers and strings are relative to the box the shape is drawn on. Points and commands that are not of the documented forms are rejected, and a rejected call changes nothing.",
  "all sequences of calls, all points and shapes",
  "unbounded trees and call sequences between making a point and rendering",
  ["elsie/boxtree/lazy.py:LazyPoint", "elsie/boxtree/lazy.py:unpack_point", "elsie/boxtree/layout.py:203-215", "elsie/boxtree/boxmixin.py:BoxMixin.mid_point", "elsie/boxtree/boxmixin.py:BoxMixin.polygon", "elsie/boxtree/boxmixin.py:BoxMixin.rect", "elsie/shapes/path.py:check_and_unpack_path_commands"])

p("C102", "Texts and images are where and as large as their box allows, through all calls",
  "A text drawn on a box is, in the end, in the middle of the rectangle which the final layout gives this box, aligned by its style, with its first base line one text size below the top of its lines; texts and images drawn with their own size are inside of their box, and scaled texts fill it without leaving it. A bitmap or SVG image is centred in its box with its proportions kept, multiplied by the given scale. Every item of the slide is drawn by exactly the call which made it. An SVG image makes the slide long enough for its last fragment; shapes, texts and bitmaps do not change the number of pages.",
  "all sequences of calls before and after, all texts, styles, images and scales",
  "unbounded trees and call sequences between drawing an item and rendering; styles, sizes and layouts are not enumerable",
  ["elsie/boxtree/boxmixin.py:BoxMixin.text", "elsie/boxtree/boxmixin.py:BoxMixin.image", "elsie/text/textboxitem.py:TextBoxItem", "elsie/boxtree/layout.py:217-226"])

p("C103", "The looks of a markdown document",
  "markdown() draws headings, paragraphs, code and labels in the styles of their names, completed by the default style of their place: every quote and every list item around a text changes the default style for what is inside of it and for nothing else. Styles that the slide already has are used as they are; missing ones are defined with the documented values (left aligned; headings of size 40, 38, ... 30; links, quotes, bold and italic) for the document only. Texts in quotes are grey, others keep the colour of the slide. No other box, slide or text changes its looks.",
  "all decks and histories of style calls, all documents",
  "unbounded nesting of quotes and lists, and mutable style objects shared between boxes",
  ["elsie/ext/markdown.py:create_root_md_box", "elsie/ext/markdown.py:build_quote", "elsie/ext/markdown.py:build_list_top", "elsie/ext/list.py:ListBuilder.item", "elsie/text/stylecontainer.py:StyleContainer"])

p("C104", "Todo placeholders",
  "todo_placeholder(box, name) adds to the end of the box exactly two nested frames, shown in all fragments on the z-level of the box, and the text TODO with the name (of the argument, else of the box) on the following lines; the slide does not get longer. The inner frame is 20 inside of the outer one; the outer one is 3 inside of the content area of the box across its direction, and on all sides if the box has no other contents; the inner frame asks for the size of its text and 20 around it. A name with a broken inline style raises after the frames are drawn, and an object without a name raises before.",
  "all slides reachable by calls, all boxes and names",
  "no test of placeholders exists; unbounded trees",
  ["elsie/ext/todo.py:todo_placeholder", "elsie/boxtree/boxmixin.py:BoxMixin.fbox"])
