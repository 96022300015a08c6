-Q theories Verif
theories/AreaThms.v
theories/AskSpec.v
theories/AskThms.v
theories/AskWit.v
theories/BreakThms.v
theories/CanvasSpec.v
theories/CanvasThms.v
theories/CanvasWit.v
theories/CellAlign.v
theories/CellSpec.v
theories/CellThms.v
theories/CellWit.v
theories/Class.v
theories/ClassFacts.v
theories/ClassOut.v
theories/ClassOutSpec.v
theories/ClassOutThms.v
theories/ClassSpec.v
theories/ClassView.v
theories/Cmd.v
theories/CmdOut.v
theories/CmdOutSpec.v
theories/CmdOutThms.v
theories/CmdThms.v
theories/CmdWit.v
theories/Describe.v
theories/DescribeFacts.v
theories/DescribeProofs.v
theories/DescribeSpec.v
theories/DescribeThms.v
theories/DescribeWit.v
theories/DimsTextFacts.v
theories/DimsTextSpec.v
theories/DrawFacts.v
theories/DrawSpec.v
theories/DrawThms.v
theories/DrawWit.v
theories/Dump.v
theories/DumpFacts.v
theories/DumpSpec.v
theories/DumpThms.v
theories/Engine.v
theories/EngineFacts.v
theories/F64Facts.v
theories/FeedThms.v
theories/FloatBase.v
theories/FloatBox.v
theories/FloatBoxSpec.v
theories/FloatBoxWit.v
theories/FloatCell.v
theories/FloatCellSpec.v
theories/FloatCellWit.v
theories/FloatEdges.v
theories/FloatFill.v
theories/FloatFillSpec.v
theories/FloatFillWit.v
theories/FloatHeight.v
theories/FloatImage.v
theories/FloatLines.v
theories/FloatRel.v
theories/FloatSpec.v
theories/FloatTable.v
theories/FloatTall.v
theories/FloatWit.v
theories/FloatWrite.v
theories/FloatWriteSpec.v
theories/FloatWriteWit.v
theories/Font.v
theories/FontSpec.v
theories/FontThms.v
theories/Fpdf.v
theories/FpdfSpec.v
theories/FpdfThms.v
theories/FpdfWit.v
theories/GoFmt.v
theories/GoStr.v
theories/GoStrFacts.v
theories/Grid.v
theories/GridFacts.v
theories/GridTextFacts.v
theories/GridTextSpec.v
theories/GridTextThms.v
theories/HeaderSpec.v
theories/HeaderThms.v
theories/HeaderWit.v
theories/HeightFacts.v
theories/Hyph.v
theories/HyphBuiltin.v
theories/HyphBuiltinFacts.v
theories/HyphEnUs.v
theories/HyphFacts.v
theories/HyphFacts2.v
theories/HyphLatin.v
theories/HyphPattern.v
theories/HyphPatternFacts.v
theories/HyphProofs.v
theories/HyphSpec.v
theories/HyphView.v
theories/ImageCmd.v
theories/ImageCmdSpec.v
theories/ImageCmdThms.v
theories/ImageFacts.v
theories/InkSpec.v
theories/InkThms.v
theories/InkWit.v
theories/InsideFacts.v
theories/InsideSpec.v
theories/InsideThms.v
theories/InsideWit.v
theories/Instr.v
theories/Json.v
theories/JsonFacts.v
theories/JsonSpec.v
theories/JsonThms.v
theories/Layout.v
theories/LayoutFacts.v
theories/LayoutSpec.v
theories/Lines.v
theories/LinesFacts.v
theories/LinesLink.v
theories/LinesSpec.v
theories/LinesThms.v
theories/LinesView.v
theories/LinesWit.v
theories/Load.v
theories/LoadDoc.v
theories/LoadDocSpec.v
theories/LoadFacts.v
theories/LoadInv.v
theories/LoadIs.v
theories/LoadNum.v
theories/LoadReads.v
theories/LoadRun.v
theories/LoadSim.v
theories/LoadSpec.v
theories/LoadStyle.v
theories/LoadStyleSpec.v
theories/LoadThms.v
theories/LoadTokens.v
theories/LoadTree.v
theories/LoadWit.v
theories/NormFacts.v
theories/Num.v
theories/NumberSpec.v
theories/NumberThms.v
theories/NumberWit.v
theories/OneLine.v
theories/OutputRun.v
theories/OutputSpec.v
theories/OutputThms.v
theories/P_Ask.v
theories/P_Break.v
theories/P_Cell.v
theories/P_Class.v
theories/P_ClassOut.v
theories/P_CmdOut.v
theories/P_Describe.v
theories/P_Draw.v
theories/P_Dump.v
theories/P_Files.v
theories/P_Float.v
theories/P_Fpdf.v
theories/P_GridText.v
theories/P_Header.v
theories/P_Hyph.v
theories/P_Image.v
theories/P_Ink.v
theories/P_Inside.v
theories/P_Layout.v
theories/P_Lines.v
theories/P_Load.v
theories/P_Number.v
theories/P_Output.v
theories/P_Paint.v
theories/P_Place.v
theories/P_Prefix.v
theories/P_Proc.v
theories/P_Same.v
theories/P_Style.v
theories/P_Styled.v
theories/P_Table.v
theories/P_Text.v
theories/P_Unseen.v
theories/PageFacts.v
theories/PageSpec.v
theories/PaintRun.v
theories/PaintSpec.v
theories/PaintThms.v
theories/PaintWit.v
theories/Path.v
theories/PathFacts.v
theories/PathSpec.v
theories/PdfPrint.v
theories/PdfPrintSpec.v
theories/PlaceCell.v
theories/PlaceSpec.v
theories/PlaceThms.v
theories/PlaceWit.v
theories/PrefixSpec.v
theories/PrefixThms.v
theories/Proc.v
theories/ProcFrame.v
theories/ProcInv.v
theories/ProcMeasure.v
theories/ProcSpec.v
theories/ProcThms.v
theories/ProcThms2.v
theories/ProcThms3.v
theories/ProcView.v
theories/ProcWit.v
theories/RefEngine.v
theories/RepoTests.v
theories/SameLoad.v
theories/SameRun.v
theories/SameSpec.v
theories/Scan.v
theories/ScanFacts.v
theories/SizeThms.v
theories/SpanFacts.v
theories/Style.v
theories/StyleFacts.v
theories/StyleSpec.v
theories/StyledSpec.v
theories/StyledThms.v
theories/StyledWit.v
theories/Table.v
theories/TableDump.v
theories/TableFacts.v
theories/TableMain.v
theories/TableSpec.v
theories/TableThms.v
theories/TableView.v
theories/TableWit.v
theories/Text.v
theories/TextFacts.v
theories/TextSpec.v
theories/UnseenSpec.v
theories/UnseenThms.v
theories/Utf8.v
theories/Utf8Facts.v
theories/WidthFacts.v
theories/WriteFacts.v
theories/WriteSpec.v
theories/WriteThms.v
theories/Xml.v
