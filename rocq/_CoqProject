-Q theories Verif
theories/PyBase.v
theories/PyNum.v
theories/Graph.v
theories/Regex.v
theories/RegexFacts.v
theories/AtnData.v
theories/Atn.v
theories/Lexer.v
theories/AtnCheck.v
theories/LexSpec.v
theories/LexerFacts.v
theories/AtnFacts.v
theories/AtnShared.v
theories/AtnSharedFacts.v
theories/Prop_Atn.v
theories/ReDisjoint.v
theories/PrintSpec.v
theories/PrintNum.v
theories/PrintLex.v
theories/PrintParse.v
theories/PrintMore.v
theories/Prop_Print.v
theories/ShiftSpec.v
theories/ShiftFacts.v
theories/Prop_Shift.v
theories/SuperSpec.v
theories/SuperFacts.v
theories/SuperDims.v
theories/Prop_Super.v
theories/Prop_Direct.v
theories/Parser.v
theories/GrammarSpec.v
theories/ParserFacts.v
theories/ParserComplete.v
theories/Visitor.v
theories/VisitSpec.v
theories/NumFacts.v
theories/VisitorFacts.v
theories/ParseFacts.v
theories/Respell.v
theories/Expr.v
theories/Units.v
theories/Sympy.v
theories/Convert.v
theories/ConvertSpec.v
theories/UnitSystem.v
theories/UnitSpec.v
theories/SystemSpec.v
theories/UnitFacts.v
theories/UnitProofs.v
theories/SystemFacts.v
theories/SystemProofs.v
theories/SystemMore.v
theories/SystemKeep.v
theories/SystemOrd.v
theories/ConvertFacts.v
theories/ConvertProofs.v
theories/ConvertMore.v
theories/EqFacts.v
theories/Xml.v
theories/XmlData.v
theories/Argparse.v
theories/ArgSpec.v
theories/ArgFacts.v
theories/Cli.v
theories/Expander.v
theories/Prop_Lex.v
theories/Prop_Grammar.v
theories/Prop_Parse.v
theories/Prop_Text.v
theories/Prop_Units.v
theories/Prop_Convert.v
theories/Prop_System.v
theories/XmlSpec.v
theories/XmlFacts.v
theories/XmlPrefix.v
theories/XmlStrict.v
theories/XmlElement.v
theories/Prop_XmlElement.v
theories/XmlText.v
theories/XmlTextData.v
theories/Prop_XmlText.v
theories/Prop_Xml.v
theories/Database.v
theories/Prop_Database.v
theories/Prop_Cli.v
theories/Prop_Args.v
theories/Ascii.v
theories/LocaleFacts.v
theories/RaisesSpec.v
theories/RaisesFacts.v
theories/Prop_Raises.v
theories/ComposeSpec.v
theories/Prop_Compose.v
theories/Prop_Locale.v
theories/ExpanderSpec.v
theories/ExpanderFacts.v
theories/Prop_Expander.v
theories/NumText.v
theories/Datetime.v
theories/Prop_Datetime.v
theories/PAtnData.v
theories/PAtn.v
theories/PSpec.v
theories/PSim.v
theories/PSimFacts.v
theories/PSimMore.v
theories/PGen.v
theories/PGenSound.v
theories/PGenRun.v
theories/PGenProgress.v
theories/PGenExact.v
theories/PShared.v
theories/PSharedFacts.v
theories/Process.v
theories/ProcessFacts.v
theories/SysShared.v
theories/SysSharedFacts.v
theories/Prop_Shared.v
theories/Prop_SuperConvert.v
theories/SystemGrow.v
theories/Prop_Grow.v
theories/SysGrow.v
theories/SysPrefix.v
theories/SysGrowFacts.v
theories/SysGrowAnswers.v
theories/Prop_SysGrow.v
theories/Prop_SysPrefix.v
theories/Stack.v
theories/StackSpec.v
theories/StackFacts.v
theories/Prop_Stack.v
theories/Dimension.v
theories/Prop_Dimension.v
theories/SymCache.v
theories/Prop_SymCache.v
theories/Rounding.v
theories/Prop_Rounding.v
theories/RoundingLog.v
theories/Prop_RoundingLog.v
theories/FloatEq.v
theories/Prop_FloatEq.v
theories/Prop_Affine.v
theories/BaseSpec.v
theories/BaseFacts.v
theories/Prop_Base.v
theories/Prop_BaseDb.v
theories/Prop_AffineDb.v
theories/Prop_RoundingLogDb.v
theories/NumpyConvert.v
theories/Prop_Numpy.v
theories/PyObject.v
theories/Prop_PyObject.v
theories/Prop_DateEq.v
theories/Prop_Nearest.v
theories/Prop_FloatEqDb.v
theories/PrintDate.v
theories/Prop_Expanded.v
theories/Prop_ExpandedDb.v
theories/Prop_Dates.v
theories/Prop_Replace.v
theories/Conformance.v
theories/PyConformance.v
theories/Prop_GenParser.v
theories/AlgebraSpec.v
theories/Prop_Algebra.v
