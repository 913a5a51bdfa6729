-Q theories Verif
theories/Py.v
theories/PyFacts.v
theories/ShowModel.v
theories/ShowSpec.v
theories/ShowProofs.v
theories/ShowProps.v
theories/LayoutModel.v
theories/LayoutSpec.v
theories/LayoutProofs.v
theories/LayoutProofs2.v
theories/LayoutProofs3.v
theories/LayoutProofs4.v
theories/ValueSpec.v
theories/ValueProofs.v
theories/LayoutProps.v
theories/SlideModel.v
theories/SlideSpec.v
theories/SlideProofs.v
theories/SlideProps.v
theories/TextModel.v
theories/TextSpec.v
theories/TextProofs.v
theories/TextMerge.v
theories/TextLines.v
theories/TextCode.v
theories/TextProps.v
theories/StyleModel.v
theories/StyleSpec.v
theories/StyleProofs.v
theories/StyleProps.v
theories/TextBoxModel.v
theories/TextBoxSpec.v
theories/TextBoxProofs.v
theories/TextBoxProps.v
theories/XmlModel.v
theories/XmlSpec.v
theories/XmlProofs.v
theories/XmlProps.v
theories/DrawModel.v
theories/DrawSpec.v
theories/DrawProofs.v
theories/DrawLoop.v
theories/DrawCairo.v
theories/DrawFacts.v
theories/DrawProps.v
theories/DeckModel.v
theories/LayoutProps2.v
theories/DeckSpec.v
theories/DeckProofs.v
theories/DeckPages.v
theories/DeckProps.v
theories/QueryModel.v
theories/QueryProps.v
theories/FsModel.v
theories/FsProps.v
theories/ConcModel.v
theories/ConcProps.v
theories/InkModel.v
theories/InkProps.v
theories/ImageModel.v
theories/ImageSpec.v
theories/ImageProofs.v
theories/ImageIds.v
theories/ImageProps.v
theories/OraModel.v
theories/OraProps.v
theories/ShapeModel.v
theories/ShapeSpec.v
theories/ShapeProofs.v
theories/ShapePaint.v
theories/ShapeShapes.v
theories/ArrowProps.v
theories/ShapeProps.v
theories/ShapeProps2.v
theories/ListModel.v
theories/ListSpec.v
theories/ListProofs.v
theories/ListLinks.v
theories/ListProps.v
theories/ListProps2.v
theories/JupyterModel.v
theories/JupyterProps.v
theories/MarkdownModel.v
theories/MarkdownSpec.v
theories/MarkdownProofs.v
theories/MarkdownOrder.v
theories/MarkdownProps.v
theories/PicModel.v
theories/PicSpec.v
theories/PicProofs.v
theories/PicProps.v
theories/PageModel.v
theories/PageSpec.v
theories/PageProofs.v
theories/PageProps.v
theories/ShortModel.v
theories/ShortProofs.v
theories/ShortProps.v
theories/DebugModel.v
theories/DebugProps.v
theories/DebugProps2.v
theories/LineProps.v
theories/RoomProofs.v
theories/RoomProps.v
theories/TextOrder.v
theories/TextOrderProps.v
theories/TextBoxProps2.v
theories/DrawProps2.v
theories/MeasureModel.v
theories/MeasureSpec.v
theories/MeasureProofs.v
theories/MeasureProps.v
theories/InlineModel.v
theories/InlineProofs.v
theories/InlineProps.v
theories/ThemeModel.v
theories/ThemeProofs.v
theories/ThemeProps.v
theories/ExportModel.v
theories/ExportProps.v
theories/DeckPropsGrid.v
theories/PlaceModel.v
theories/PlaceProps.v
theories/PlacePropsPage.v
theories/MixModel.v
theories/MixProps.v
theories/ArtModel.v
theories/ArtProps.v
theories/ArtPropsPage.v
theories/MdLookModel.v
theories/MdLookProps.v
theories/LayoutProps3.v
theories/MarkdownProps2.v
theories/ExportProps2.v
theories/TodoModel.v
theories/TodoProps.v
theories/ShapeProps3.v
