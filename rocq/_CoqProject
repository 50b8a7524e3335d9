-Q theories Verif
theories/PyBase.v
theories/Model_Filters.v
theories/Model_Objects.v
theories/Spec_Objects.v
theories/Facts_Base.v
theories/Facts_Token.v
theories/Facts_Obj.v
theories/Facts_Ser.v
theories/Facts_Parse.v
theories/Facts_Top.v
theories/Facts_Stream.v
theories/Spec_Filters.v
theories/Facts_Filters.v
theories/Facts_Refs.v
theories/Props_Objects.v
theories/Props_Filters.v
theories/Model_Filestruct.v
theories/Spec_Filestruct.v
theories/Facts_Prov.v
theories/Facts_Xref.v
theories/Facts_Indirect.v
theories/Facts_Xstm.v
theories/Facts_Revision.v
theories/Facts_Scan.v
theories/Facts_Index.v
theories/Facts_Written.v
theories/Props_Filestruct.v
theories/Model_Text.v
theories/Spec_Text.v
theories/Facts_Text.v
theories/Props_Text.v
theories/Model_Graphics.v
theories/Spec_Graphics.v
theories/Facts_Graphics.v
theories/Props_Graphics.v
theories/Model_Layout.v
theories/Spec_Layout.v
theories/Facts_Layout.v
theories/Props_Layout.v
theories/Model_Docstruct.v
theories/Model_Api.v
theories/Spec_Docstruct.v
theories/Facts_Doc.v
theories/Spec_Api.v
theories/Facts_Commit.v
theories/Facts_Write.v
theories/Cases_Docstruct.v
theories/Props_Docstruct.v
theories/Spec_Pages.v
theories/Facts_Edit.v
theories/Facts_Pages.v
theories/Facts_Remove.v
theories/Spec_Objstm.v
theories/Facts_Objstm.v
theories/Props_Objstm.v
theories/Facts_Checks.v
theories/Cases_Pages.v
theories/Props_Pages.v
theories/Spec_Squash.v
theories/Facts_Squash.v
theories/Facts_Concat.v
theories/Cases_Squash.v
theories/Props_Squash.v
theories/Spec_Save.v
theories/Facts_Chain.v
theories/Facts_Save.v
theories/Facts_Rewind.v
theories/Props_Save.v
theories/Model_Markdown.v
theories/Spec_Markdown.v
theories/Facts_Markdown.v
theories/Facts_Blocks.v
theories/Facts_Emphasis.v
theories/Facts_Shown.v
theories/Props_Markdown.v
theories/Model_Display.v
theories/Spec_Display.v
theories/Facts_Display.v
theories/Facts_Cross.v
theories/Props_Display.v
theories/Model_Heap.v
theories/Spec_Heap.v
theories/Facts_Heap.v
theories/Facts_Sharing.v
theories/Props_Heap.v
theories/Spec_Calls.v
theories/Cases_Calls.v
theories/Facts_Calls.v
theories/Props_Calls.v
theories/Facts_Linear.v
theories/Props_Linear.v
theories/Spec_Packed.v
theories/Facts_Packed.v
theories/Facts_Compress.v
theories/Facts_PackCheck.v
theories/Cases_Packed.v
theories/Props_Packed.v
theories/Model_Fonts.v
theories/Spec_Fonts.v
theories/Facts_Fonts.v
theories/Cases_Fonts.v
theories/Props_Fonts.v
theories/Model_Disasm.v
theories/Spec_Disasm.v
theories/Spec_View.v
theories/Facts_View.v
theories/Props_View.v
theories/Facts_Disasm.v
theories/Props_Disasm.v
theories/Spec_Foreign.v
theories/Facts_Foreign.v
theories/Facts_Stays.v
theories/Cases_Foreign.v
theories/Props_Foreign.v
theories/Spec_Encodings.v
theories/Facts_Encodings.v
theories/Props_Encodings.v
theories/Model_Structure.v
theories/Spec_Structure.v
theories/Facts_Structure.v
theories/Cases_Structure.v
theories/Props_Structure.v
theories/Spec_Syntax.v
theories/Facts_Syntax.v
theories/Facts_Stored.v
theories/Props_Syntax.v
theories/Spec_Map.v
theories/Facts_Map.v
theories/Props_Map.v
theories/Spec_Files.v
theories/Facts_Tables.v
theories/Facts_Files.v
theories/Props_Files.v
theories/Facts_Versions.v
theories/Props_Versions.v
theories/Spec_Streams.v
theories/Facts_ObjText.v
theories/Props_ObjText.v
theories/Facts_XText.v
theories/Props_XText.v
theories/Spec_Sections.v
theories/Facts_Sections.v
theories/Facts_Spell.v
theories/Props_Sections.v
theories/Model_Print.v
theories/Spec_Print.v
theories/Facts_Print.v
theories/Props_Print.v
theories/Model_Overview.v
theories/Spec_Overview.v
theories/Facts_Overview.v
theories/Props_Overview.v
theories/Model_IndexTable.v
theories/Spec_IndexTable.v
theories/Facts_IndexTable.v
theories/Props_IndexTable.v
theories/Spec_Endless.v
theories/Facts_Endless.v
theories/Props_Endless.v
theories/Model_MdTokens.v
theories/Spec_MdTokens.v
theories/Facts_MdTokens.v
theories/Props_MdTokens.v
theories/Model_MdRender.v
theories/Spec_MdRender.v
theories/Facts_MdRender.v
theories/Spec_MdTitles.v
theories/Facts_MdTitles.v
theories/Spec_Advance.v
theories/Facts_Advance.v
theories/Props_Advance.v
theories/Spec_Contents.v
theories/Facts_Contents.v
theories/Props_Contents.v
theories/Spec_MdRules.v
theories/Facts_MdRules.v
theories/Props_MdRules.v
theories/Spec_Quotes.v
theories/Facts_Quotes.v
theories/Props_Quotes.v
theories/Props_StaleVersion.v
theories/Facts_SquashInfo.v
theories/Props_SquashInfo.v
theories/Model_Spatial.v
theories/Spec_Spatial.v
theories/Facts_Spatial.v
theories/Props_Spatial.v
theories/Spec_Charsets.v
theories/Facts_Charsets.v
theories/Props_Charsets.v
