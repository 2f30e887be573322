-Q theories Verif
theories/Py.v
theories/PdfSyntax.v
theories/PdfFile.v
theories/Parser.v
theories/Denote.v
theories/ParserProofs.v
theories/StreamProofs.v
theories/Base.v
theories/BaseProofs.v
theories/BaseProofs2.v
theories/PSerial.v
theories/PyStr.v
theories/Roman.v
theories/Ranges.v
theories/Margins.v
theories/PageGeom.v
theories/Jpeg.v
theories/PUtils.v
theories/Store.v
theories/PageTree.v
theories/NameTree.v
theories/OutlineTree.v
theories/FontTables.v
theories/Fonts.v
theories/PFonts.v
theories/PdfObj.v
theories/PdfObjSpec.v
theories/PdfObjFonts.v
theories/PdfObjProofs.v
theories/PdfObjSteps.v
theories/PdfObjRun.v
theories/PdfObjOut.v
theories/PdfObjDoc.v
theories/PDoc.v
theories/Gfx.v
theories/TextLayout.v
theories/TextProofs.v
theories/TextWords.v
theories/TextOrder.v
theories/TextFit.v
theories/TextWidth.v
theories/TextSpace.v
theories/PText.v
theories/TextEmit.v
theories/TextMarks.v
theories/TextPaint.v
theories/TextTerm.v
theories/PText2.v
theories/PSpaces.v
theories/TextApart.v
theories/TextRound.v
theories/PApart.v
theories/TextList.v
theories/PListLines.v
theories/PListMarks.v
theories/ColorNames.v
theories/Color.v
theories/StyleStr.v
theories/RichText.v
theories/PRich.v
theories/Table.v
theories/TableProofs.v
theories/TableGeom.v
theories/TableHeight.v
theories/TableSpan.v
theories/TableChain.v
theories/PTable.v
theories/PTableHeight.v
theories/TableLines.v
theories/TableEdges.v
theories/PLines.v
theories/TableFills.v
theories/PFills.v
theories/TableDefs.v
theories/PDefs.v
theories/Content.v
theories/ContentFlow.v
theories/ContentGeom.v
theories/ContentFlat.v
theories/ContentGroup.v
theories/ContentState.v
theories/ContentBalance.v
theories/ContentTame.v
theories/ContentApart.v
theories/ContentHeight.v
theories/Copy.v
theories/PContent.v
theories/PState.v
theories/PBottom.v
theories/PBeside.v
theories/PHeight.v
theories/ImageAdd.v
theories/PImageAdd.v
theories/Document.v
theories/DocNumber.v
theories/DocumentProofs.v
theories/PDocument.v
theories/PImage.v
theories/Footnotes.v
theories/FootnotesProofs.v
theories/FootnotesFlat.v
theories/FootnotesText.v
theories/PFootnotes.v
theories/PRebuild.v
theories/Flow.v
theories/PFlow.v
theories/Styles.v
theories/PStyles.v
theories/DocStyles.v
theories/PDocStyles.v
theories/FontDesc.v
theories/PFontDesc.v
theories/NotesPlace.v
theories/PNotes.v
theories/Whole.v
theories/TableTokens.v
theories/WholeProofs.v
theories/PWhole.v
theories/TableEnds.v
theories/ContentEnds.v
theories/WholeEnds.v
theories/PWholeEnds.v
theories/ContentCols.v
theories/PColumns.v
theories/Alone.v
theories/PAlone.v
theories/PListText.v
theories/PageText.v
theories/PPageText.v
theories/TextVars.v
theories/PVars.v
theories/ContentRoom.v
theories/TableRoom.v
theories/WholeRoom.v
theories/PWholeRoom.v
theories/PdfWhole.v
theories/PdfReader.v
theories/GoodObjs.v
theories/FileSpec.v
theories/FileProofs.v
theories/PFile.v
theories/TextSplit.v
theories/WholeMade.v
theories/WholeFile.v
theories/PWholeFile.v
theories/Links.v
theories/LinkFile.v
theories/PLinks.v
theories/Calls.v
theories/CallsProofs.v
theories/PCalls.v
theories/PCallsEnd.v
theories/PCallsRoom.v
theories/TextNonneg.v
theories/ContentCover.v
theories/CallsCover.v
theories/PCallsApart.v
