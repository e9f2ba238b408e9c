-Q theories Verif
theories/Base.v
theories/Model_Names.v
theories/Model_Table.v
theories/Model_Sort.v
theories/Spec.v
theories/Spec_Sort.v
theories/Proofs_Lib.v
theories/Proofs_Table.v
theories/Proofs_Cells.v
theories/Proofs_Struct.v
theories/Proofs_Api.v
theories/Proofs_Pres.v
theories/Samples.v
theories/Proofs_Zero.v
theories/Proofs_Api2.v
theories/Props_Cells.v
theories/Props_Struct.v
theories/Props_Swap.v
theories/Model_Copy.v
theories/Spec_Copy.v
theories/Proofs_Copy.v
theories/Props_Copy.v
theories/Proofs_Order.v
theories/Proofs_Sort.v
theories/Proofs_Search.v
theories/Proofs_Keys.v
theories/Proofs_Env.v
theories/Props_Sort.v
theories/Model_Merge.v
theories/Model_Ops.v
theories/Model_Heap.v
theories/Spec_Heap.v
theories/Proofs_Heap.v
theories/Props_Heap.v
theories/Spec_Walk.v
theories/Proofs_Walk.v
theories/Proofs_Nesting.v
theories/Props_Walk.v
theories/Spec_Frame.v
theories/Proofs_Frame.v
theories/Model_TableSet.v
theories/Spec_TableSet.v
theories/Proofs_TableSet.v
theories/Props_TableSet.v
theories/Spec_Equals.v
theories/Proofs_Equals.v
theories/Props_Equals.v
theories/Spec_Keys.v
theories/Proofs_KeyInv.v
theories/Proofs_Valid.v
theories/Props_Valid.v
theories/Spec_Sets.v
theories/Props_Sets.v
theories/Model_Lex.v
theories/Model_Float.v
theories/Model_Time.v
theories/Model_Parser.v
theories/Model_Print.v
theories/Proofs_Lex.v
theories/Spec_Text.v
theories/Proofs_Num.v
theories/Props_Lex.v
theories/Proofs_Float.v
theories/Proofs_Parser.v
theories/Props_Parser.v
theories/Proofs_FloatText.v
theories/Proofs_Closest.v
theories/Proofs_Decimal.v
theories/Proofs_TimeText.v
theories/Proofs_Lines.v
theories/Proofs_Block.v
theories/Proofs_CellText.v
theories/Proofs_Unpadded.v
theories/Proofs_Padded.v
theories/Proofs_SetText.v
theories/Props_Text.v
theories/Spec_Merge.v
theories/Proofs_MergePure.v
theories/Proofs_MergeRun.v
theories/Proofs_MergeFill.v
theories/Proofs_MergeLoop.v
theories/Proofs_MergeDelete.v
theories/Proofs_Merge.v
theories/Proofs_MergeSpec.v
theories/Props_Merge.v
theories/Spec_Abstract.v
theories/Proofs_Abstract.v
theories/Proofs_AbsStep.v
theories/Proofs_AbsStep2.v
theories/Props_Abstract.v
theories/Model_Csv.v
theories/Spec_Csv.v
theories/Props_Csv.v
theories/Model_Gob.v
theories/Spec_Gob.v
theories/Props_Gob.v
theories/Model_Round.v
theories/Spec_Round.v
theories/Spec_Decimal.v
theories/Props_Round.v
theories/Model_Json.v
theories/Spec_Json.v
theories/Proofs_JsonText.v
theories/Proofs_JsonWrite.v
theories/Proofs_JsonValue.v
theories/Proofs_JsonRead.v
theories/Proofs_JsonTree.v
theories/Props_Json.v
theories/Model_Yaml.v
theories/Spec_Yaml.v
theories/Proofs_YamlWrite.v
theories/Proofs_YamlRead.v
theories/Props_Yaml.v
theories/Spec_Foreign.v
theories/Proofs_Foreign.v
theories/Props_Foreign.v
theories/Props_JsonGrammar.v
theories/Model_Query.v
theories/Props_Query.v
theories/Spec_Document.v
theories/Proofs_Document.v
theories/Props_Document.v
theories/Model_Nest.v
theories/Spec_Nest.v
theories/Proofs_Nest.v
theories/Props_Nest.v
theories/Proofs_Tree.v
theories/Spec_Tree.v
theories/Proofs_StringNested.v
theories/Props_Tree.v
theories/Model_File.v
theories/Spec_File.v
theories/Proofs_Torn.v
theories/Props_File.v
theories/Model_Race.v
theories/Spec_Race.v
theories/Props_Race.v
theories/Proofs_Width.v
theories/Spec_Layout.v
theories/Proofs_Layout.v
theories/Props_Layout.v
theories/Spec_StructText.v
theories/Proofs_StructText.v
theories/Proofs_SetStruct.v
theories/Props_StructText.v
theories/Model_Generate.v
theories/Spec_Generate.v
theories/Proofs_Generate.v
theories/Proofs_GenRun.v
theories/Props_Generate.v
theories/Spec_Deep.v
theories/Proofs_Deep.v
theories/Props_Deep.v
theories/Spec_Grammar.v
theories/Proofs_Token.v
theories/Proofs_Grammar.v
theories/Props_Grammar.v
theories/Spec_Refuse.v
theories/Proofs_Refuse.v
theories/Props_Refuse.v
theories/Props_Decimal.v
theories/Spec_Time.v
theories/Proofs_Time.v
theories/Props_Time.v
theories/Props_Column.v
theories/Spec_Indent.v
theories/Model_Indent.v
theories/Proofs_Says.v
theories/Proofs_Indent.v
theories/Proofs_Indent2.v
theories/Props_Indent.v
theories/Spec_CircRef.v
theories/Model_CircRef.v
theories/Proofs_CircRef.v
theories/Props_CircRef.v
theories/Spec_JsonCells.v
theories/Proofs_JsonCells.v
theories/Props_JsonCells.v
theories/Spec_YamlCells.v
theories/Proofs_YamlCells.v
theories/Props_YamlCells.v
theories/Spec_Convert.v
theories/Proofs_Convert.v
theories/Proofs_SameText.v
theories/Props_Convert.v
theories/Props_Members.v
theories/Proofs_Forest.v
theories/Proofs_SameTree.v
theories/Proofs_CopyReady.v
theories/Proofs_YamlGo.v
theories/Props_Forest.v
theories/Props_YamlText.v
theories/Props_IsKey.v
theories/Props_Ask.v
