-Q theories Verif
theories/Cells.v
theories/Machine.v
theories/Optional.v
theories/Program.v
theories/Spec.v
theories/CellsFacts.v
theories/Laws.v
theories/Refine.v
theories/Effects.v
theories/Frame.v
theories/Lifetime.v
theories/Bits.v
theories/Manip.v
theories/Contract.v
theories/Sample.v
theories/Histories.v
theories/Leaks.v
theories/ExampleTac.v
theories/SpecTac.v
theories/Exceptions.v
theories/Values.v
theories/Monadic.v
theories/Noexcept.v
theories/Compare.v
theories/CmpOverload.v
theories/Locality.v
theories/Threads.v
theories/Accesses.v
theories/IntRange.v
theories/Select.v
theories/Selection.v
theories/Sentinels.v
theories/Tearing.v
theories/Numbers.v
theories/Scalars.v
theories/Provenance.v
theories/Defaults.v
theories/Documented.v
theories/Whole.v
theories/Configs.v
theories/Namespace.v
theories/Natvis.v
theories/Smf.v
theories/Overload.v
theories/SwapCall.v
theories/Deduce.v
theories/HashEnable.v
theories/Traits.v
theories/Exercises.v
theories/Clients.v
theories/Callables.v
theories/Categories.v
theories/Data.v
theories/Nested.v
theories/Moved.v
theories/FlagClass.v
theories/Reentry.v
theories/Generic.v
theories/Flat.v
theories/Swallow.v
theories/Forgets.v
theories/Worlds.v
theories/Recursion.v
theories/Syntax.v
theories/Source.v
theories/Exec.v
theories/Texts.v
theories/TextFacts.v
theories/TextPairs.v
theories/TextCompare.v
theories/TextRuns.v
theories/Flags.v
theories/Address.v
theories/Constants.v
theories/CompileTime.v
theories/TemplateSyntax.v
theories/Templates.v
theories/Instantiate.v
theories/SelectionText.v
theories/SelectionProof.v
theories/Specials.v
theories/Declared.v
theories/Heads.v
theories/Constraints.v
theories/Library.v
theories/Deduced.v
theories/Accepted.v
theories/Members.v
theories/Interface.v
theories/TypeNames.v
theories/DataText.v
theories/Explicit.v
theories/Constexpr.v
theories/ConstantUse.v
theories/Layout.v
theories/Sizes.v
theories/Assumptions.v
