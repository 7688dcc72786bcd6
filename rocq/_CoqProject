-Q theories Verif
theories/PyStr.v
theories/Regex.v
theories/UniTable.v
theories/Patterns.v
theories/PyPath.v
theories/Res.v
theories/Inline.v
theories/Const.v
theories/Item.v
theories/Lines.v
theories/Stash.v
theories/StrFacts.v
theories/ReFacts.v
theories/LinesFacts.v
theories/ParseFacts.v
theories/ExnFacts.v
theories/OffsetFacts.v
theories/Demo.v
theories/Props_Lines.v
theories/ItemFacts.v
theories/Props_Items.v
theories/HistFacts.v
theories/ReachFacts.v
theories/MapFacts.v
theories/QueryFacts.v
theories/Spec_Query.v
theories/Proofs_Query.v
theories/Props_Query.v
theories/LinkFacts.v
theories/NameFacts.v
theories/Spec_Files.v
theories/AppendFacts.v
theories/Proofs_Files.v
theories/Props_Files.v
theories/Spec_Const.v
theories/ConstFacts.v
theories/Proofs_Const.v
theories/Props_Const.v
theories/Spec_Paths.v
theories/Proofs_Paths.v
theories/Props_Paths.v
theories/ExpandFacts.v
theories/ExpandText.v
theories/Spec_Expand.v
theories/Proofs_Expand.v
theories/VarFacts.v
theories/Proofs_Words.v
theories/Props_Expand.v
theories/Spec_Pkg.v
theories/Proofs_Pkg.v
theories/Props_Pkg.v
theories/IncludeFacts.v
theories/Spec_Include.v
theories/Proofs_Include.v
theories/Props_Include.v
theories/Spec_Parse.v
theories/ClassFacts.v
theories/MatchFacts.v
theories/ShapeFacts.v
theories/Proofs_Parse.v
theories/Proofs_Stmt.v
theories/StmtFacts.v
theories/Proofs_Stmt2.v
theories/Proofs_Stmt3.v
theories/Proofs_Name.v
theories/Props_Parse.v
theories/Spec_Inline.v
theories/InlineFacts.v
theories/InlineEval.v
theories/InlineText.v
theories/Proofs_Inline.v
theories/Props_Inline.v
theories/Props_FuncCode.v
theories/Proofs_ReadFile.v
theories/Props_ReadFile.v
theories/Spec_Group.v
theories/Proofs_Group.v
theories/Props_Group.v
theories/Spec_Func.v
theories/Proofs_Func.v
theories/Proofs_FuncCode.v
theories/Props_Func.v
theories/Cache.v
theories/Spec_Cache.v
theories/Proofs_Cache.v
theories/Props_Cache.v
theories/StashList.v
theories/Proofs_StashList.v
theories/Props_StashList.v
theories/ConstHeap.v
theories/Spec_ConstHeap.v
theories/Proofs_ConstHeap.v
theories/Props_ConstHeap.v
theories/ChunkFacts.v
theories/Access.v
theories/Spec_Access.v
theories/Proofs_Access.v
theories/Props_Access.v
theories/Spec_Load.v
theories/Proofs_Load.v
theories/Props_Load.v
theories/Spec_Total.v
theories/Proofs_Total.v
theories/Props_Total.v
theories/CacheHeap.v
theories/Spec_Own.v
theories/Proofs_Own.v
theories/Props_Own.v
theories/Many.v
theories/Spec_Many.v
theories/Proofs_Many.v
theories/Props_Many.v
theories/Spec_Recipe.v
theories/Proofs_Recipe.v
theories/Proofs_Values.v
theories/Proofs_Parts.v
theories/Proofs_Shows.v
theories/Props_Recipe.v
theories/Props_Coded.v
theories/Spec_Compose.v
theories/Proofs_Compose.v
theories/Props_Compose.v
theories/Spec_Appends.v
theories/Proofs_Appends.v
theories/Props_Appends.v
theories/Spec_Where.v
theories/Proofs_Where.v
theories/Props_Where.v
theories/Upper.v
theories/Spec_Upper.v
theories/Proofs_Upper.v
theories/Props_Upper.v
theories/Repr.v
theories/Spec_Fingerprint.v
theories/Proofs_Fingerprint.v
theories/Props_Fingerprint.v
theories/Timed.v
theories/Spec_Timed.v
theories/Proofs_Timed.v
theories/Props_Timed.v
theories/Memo.v
theories/Spec_Memo.v
theories/Proofs_Memo.v
theories/Props_Memo.v
theories/Setters.v
theories/Spec_Setters.v
theories/Proofs_Setters.v
theories/Props_Setters.v
theories/Spec_Swallow.v
theories/Proofs_Swallow.v
theories/Props_Swallow.v
theories/Proofs_Anyfile.v
theories/Props_Anyfile.v
theories/Spec_Again.v
theories/Proofs_Again.v
theories/Props_Again.v
theories/Spec_Before.v
theories/Proofs_Before.v
theories/Props_Before.v
theories/Lists.v
theories/Spec_Lists.v
theories/Proofs_Lists.v
theories/Props_Lists.v
theories/Spec_Named.v
theories/Proofs_Named.v
theories/Props_Named.v
theories/Spec_Causes.v
theories/Proofs_Causes.v
theories/Props_Causes.v
theories/Spec_Apart.v
theories/Proofs_Apart.v
theories/Props_Apart.v
theories/Proofs_Several.v
theories/Props_Inherits.v
theories/Spec_Pattern.v
theories/Proofs_Pattern.v
theories/Props_Pattern.v
theories/Spec_Backslash.v
theories/Proofs_Backslash.v
theories/Props_Backslash.v
theories/FromAppend.v
theories/Proofs_FromAppend.v
theories/Props_FromAppend.v
theories/Spec_After.v
theories/Proofs_After.v
theories/Props_After.v
theories/Spec_Search.v
theories/Proofs_Search.v
theories/Props_Search.v
theories/Spec_Each.v
theories/Proofs_Each.v
theories/Props_Each.v
theories/Reconst.v
theories/Spec_Reconst.v
theories/Proofs_Reconst.v
theories/Props_Reconst.v
theories/Shared.v
theories/Proofs_Shared.v
theories/Props_Shared.v
theories/Spec_Reads.v
theories/Proofs_Reads.v
theories/Props_Reads.v
theories/Default.v
theories/Spec_Mirror.v
theories/Proofs_Mirror.v
theories/Props_Mirror.v
theories/Spec_Finalize.v
theories/Proofs_Finalize.v
theories/Props_Finalize.v
theories/Spec_Negative.v
theories/Proofs_Negative.v
theories/Props_Negative.v
theories/Spec_Undo.v
theories/Proofs_Undo.v
theories/Props_Undo.v
theories/Spec_Alike.v
theories/Proofs_Alike.v
theories/Props_Alike.v
theories/Spec_Swap.v
theories/Proofs_Swap.v
theories/Props_Swap.v
theories/Spec_Front.v
theories/Proofs_Front.v
theories/Props_Front.v
theories/Spec_Style.v
theories/Proofs_Style.v
theories/Props_Style.v
theories/Spec_Local.v
theories/Proofs_Local.v
theories/Props_Local.v
