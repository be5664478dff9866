(* GeneratorRepo.v -- parts of the generated files of the repository as they stand there (copied by a script):
   the constants, the variables, the string of the names and the array of start indices. *)
From Coq Require Import String.
Local Open Scope string_scope.
(* grapheme/graphemeclasses.go:23-35 *)
Definition grapheme_consts : string := "    CRClass GraphemeClass = 0
    LFClass GraphemeClass = 1
    PrependClass GraphemeClass = 2
    ControlClass GraphemeClass = 3
    ExtendClass GraphemeClass = 4
    Regional_IndicatorClass GraphemeClass = 5
    SpacingMarkClass GraphemeClass = 6
    LClass GraphemeClass = 7
    VClass GraphemeClass = 8
    TClass GraphemeClass = 9
    LVClass GraphemeClass = 10
    LVTClass GraphemeClass = 11
    ZWJClass GraphemeClass = 12
".
(* grapheme/graphemeclasses.go:45-46 *)
Definition grapheme_vars : string := "CR, LF, Prepend, Control, Extend, Regional_Indicator, SpacingMark, L, V, T, 
    LV, LVT, ZWJ, unused *unicode.RangeTable
".
(* grapheme/graphemeclasses.go:48 *)
Definition grapheme_name : string := "CRClassLFClassPrependClassControlClassExtendClassRegional_IndicatorClassSpacingMarkClassLClassVClassTClassLVClassLVTClassZWJClass".
(* grapheme/graphemeclasses.go:50-51, behind the first 0 *)
Definition grapheme_index : string := ", 7, 14, 26, 38, 49, 72, 88, 94, 100,
    106, 113, 121, 129".
(* uax29/uax29classes.go:23-40 *)
Definition uax29_consts : string := "    ALetterClass UAX29Class = 0
    CRClass UAX29Class = 1
    Double_QuoteClass UAX29Class = 2
    ExtendClass UAX29Class = 3
    ExtendNumLetClass UAX29Class = 4
    FormatClass UAX29Class = 5
    Hebrew_LetterClass UAX29Class = 6
    KatakanaClass UAX29Class = 7
    LFClass UAX29Class = 8
    MidLetterClass UAX29Class = 9
    MidNumClass UAX29Class = 10
    MidNumLetClass UAX29Class = 11
    NewlineClass UAX29Class = 12
    NumericClass UAX29Class = 13
    Regional_IndicatorClass UAX29Class = 14
    Single_QuoteClass UAX29Class = 15
    WSegSpaceClass UAX29Class = 16
    ZWJClass UAX29Class = 17
".
(* uax29/uax29classes.go:50-51 *)
Definition uax29_vars : string := "ALetter, CR, Double_Quote, Extend, ExtendNumLet, Format, Hebrew_Letter, Katakana, LF, MidLetter, 
    MidNum, MidNumLet, Newline, Numeric, Regional_Indicator, Single_Quote, WSegSpace, ZWJ, unused *unicode.RangeTable
".
(* uax29/uax29classes.go:53 *)
Definition uax29_name : string := "ALetterClassCRClassDouble_QuoteClassExtendClassExtendNumLetClassFormatClassHebrew_LetterClassKatakanaClassLFClassMidLetterClassMidNumClassMidNumLetClassNewlineClassNumericClassRegional_IndicatorClassSingle_QuoteClassWSegSpaceClassZWJClass".
(* uax29/uax29classes.go:55-56, behind the first 0 *)
Definition uax29_index : string := ", 12, 19, 36, 47, 64, 75, 93, 106, 113,
    127, 138, 152, 164, 176, 199, 216, 230, 238".
(* emoji/emojiclasses.go:23-28 *)
Definition emoji_consts : string := "    EmojiClass EmojisClass = 0
    Emoji_PresentationClass EmojisClass = 1
    Emoji_ModifierClass EmojisClass = 2
    Emoji_Modifier_BaseClass EmojisClass = 3
    Emoji_ComponentClass EmojisClass = 4
    Extended_PictographicClass EmojisClass = 5
".
(* emoji/emojiclasses.go:34-35 *)
Definition emoji_vars : string := "Emoji, Emoji_Presentation, Emoji_Modifier, Emoji_Modifier_Base, Emoji_Component, Extended_Pictographic, 
    unused *unicode.RangeTable
".
(* emoji/emojiclasses.go:37 *)
Definition emoji_name : string := "EmojiClassEmoji_PresentationClassEmoji_ModifierClassEmoji_Modifier_BaseClassEmoji_ComponentClassExtended_PictographicClass".
(* emoji/emojiclasses.go:39-39, behind the first 0 *)
Definition emoji_index : string := ", 10, 33, 52, 76, 96, 122".
