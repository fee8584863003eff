-Q theories Verif
theories/Base.v
theories/Dec.v
theories/Value.v
theories/DType.v
theories/DTypeFacts.v
theories/Types.v
theories/TypesFacts.v
theories/Flt.v
theories/Ops.v
theories/ParseUtil.v
theories/Codec.v
theories/CodecFacts.v
theories/Attr.v
theories/Prog.v
theories/Ast.v
theories/Eval.v
theories/Build.v
theories/EqFacts.v
theories/CoerceFacts.v
theories/Engine.v
theories/P_Types.v
theories/ProgFacts.v
theories/StateFacts.v
theories/Demo.v
theories/P_State.v
theories/OrdFacts.v
theories/P_Compare.v
theories/DecFacts.v
theories/Truth.v
theories/P_Ops.v
theories/P_Items.v
theories/Post.v
theories/P_Eval.v
theories/P_Aware.v
theories/Refine.v
theories/P_Names.v
theories/P_Calls.v
theories/NumFacts.v
theories/P_Attrs.v
theories/P_Numbers.v
theories/DecRound.v
theories/FltFacts.v
theories/P_Decimal.v
theories/P_Builtins.v
theories/Suggest.v
theories/P_Suggest.v
theories/Threads.v
theories/P_Threads.v
theories/StrLit.v
theories/P_StrLit.v
theories/GrammarTab.v
theories/Grammar.v
theories/GrammarSpec.v
theories/GrammarCheck.v
theories/GrammarFacts.v
theories/GrammarSem.v
theories/P_Grammar.v
theories/P_Print.v
theories/Fits.v
theories/P_Sound.v
theories/Same.v
theories/P_Fold.v
theories/P_Static.v
theories/P_Errors.v
theories/Lexer.v
theories/LexSpec.v
theories/LexFacts.v
theories/LexSteps.v
theories/P_Lexer.v
theories/P_Text.v
theories/RuleText.v
theories/P_Construct.v
theories/Hints.v
theories/P_Hints.v
theories/P_Clock.v
theories/Reenter.v
theories/P_Reenter.v
theories/P_Collections.v
theories/P_Codec.v
theories/P_Literals.v
theories/Context.v
theories/P_Context.v
theories/P_Conform.v
theories/Generator.v
theories/P_Filter.v
theories/Custom.v
theories/P_Custom.v
theories/FltNear.v
theories/P_Float.v
theories/Local.v
theories/Getattr.v
theories/P_Local.v
theories/P_Algebra.v
theories/P_Unresolved.v
theories/P_Asked.v
theories/Repl.v
theories/P_Repl.v
theories/P_SetOrder.v
theories/P_Syntax.v
theories/P_Safe.v
theories/Diagram.v
theories/P_Diagram.v
theories/P_Erase.v
theories/P_Alpha.v
theories/P_Subst.v
theories/P_Default.v
