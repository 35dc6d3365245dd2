-Q theories Verif
theories/Added_main.v
theories/Again_main.v
theories/Alike_main.v
theories/Anykeys.v
theories/Anykeys_main.v
theories/Asserts_main.v
theories/Attrs.v
theories/Attrs_main.v
theories/Base.v
theories/Bodies.v
theories/Bodies_main.v
theories/Bodies_proofs.v
theories/Changes_main.v
theories/Classes.v
theories/Classes_main.v
theories/Classes_proofs.v
theories/Classobj_main.v
theories/Compat.v
theories/Compat_main.v
theories/Cont_main.v
theories/Containers.v
theories/Convert_main.v
theories/Copy_main.v
theories/Copy_proofs.v
theories/Crowd.v
theories/Crowd_main.v
theories/Cycles_main.v
theories/Decl_main.v
theories/Declared.v
theories/Decor.v
theories/Deep.v
theories/Deep_main.v
theories/Deleted.v
theories/Deleted_main.v
theories/Demo.v
theories/DemoCls.v
theories/DemoRt.v
theories/DemoTok.v
theories/DemoTyping.v
theories/Dict_proofs.v
theories/Dicts.v
theories/Dicts_main.v
theories/Evolve_main.v
theories/Export_main.v
theories/Extras.v
theories/Extras_main.v
theories/Factories_main.v
theories/Filler.v
theories/Filler_decl.v
theories/Filler_eqs.v
theories/Filler_exact.v
theories/Filler_inv.v
theories/Filler_kind.v
theories/Filler_leaf.v
theories/Filler_main.v
theories/Filler_obl.v
theories/Filler_proofs.v
theories/Filler_seal.v
theories/Filler_shape.v
theories/Filler_sound.v
theories/Float_proofs.v
theories/From_main.v
theories/Given.v
theories/Given_main.v
theories/Graph.v
theories/Groups_main.v
theories/Hints.v
theories/Hints_docs.v
theories/Hints_proofs.v
theories/Hist_main.v
theories/Hist_proofs.v
theories/Inherit_main.v
theories/Inst_main.v
theories/Inst_proofs.v
theories/Json.v
theories/Json_main.v
theories/Keyed.v
theories/Keyed_main.v
theories/Keywords_main.v
theories/Lax_main.v
theories/Literals_main.v
theories/Live.v
theories/Live_main.v
theories/Members_main.v
theories/Mixed_main.v
theories/Mut_main.v
theories/Mutable.v
theories/Names.v
theories/Names_main.v
theories/Nest.v
theories/Nested_main.v
theories/New_main.v
theories/Optional_main.v
theories/Order_main.v
theories/Props_Added.v
theories/Props_Again.v
theories/Props_Alike.v
theories/Props_Anykeys.v
theories/Props_Asserts.v
theories/Props_Attrs.v
theories/Props_Bodies.v
theories/Props_Changes.v
theories/Props_Classes.v
theories/Props_Classobj.v
theories/Props_Compat.v
theories/Props_Cont.v
theories/Props_Convert.v
theories/Props_Copy.v
theories/Props_Crowd.v
theories/Props_Cycles.v
theories/Props_Decl.v
theories/Props_Deep.v
theories/Props_Deleted.v
theories/Props_Dicts.v
theories/Props_Evolve.v
theories/Props_Export.v
theories/Props_Extras.v
theories/Props_Factories.v
theories/Props_Filler.v
theories/Props_From.v
theories/Props_Given.v
theories/Props_Groups.v
theories/Props_Hist.v
theories/Props_Inherit.v
theories/Props_Inst.v
theories/Props_Json.v
theories/Props_Keyed.v
theories/Props_Keywords.v
theories/Props_Lax.v
theories/Props_Literals.v
theories/Props_Live.v
theories/Props_Members.v
theories/Props_Mixed.v
theories/Props_Mut.v
theories/Props_Names.v
theories/Props_Nested.v
theories/Props_New.v
theories/Props_Optional.v
theories/Props_Order.v
theories/Props_Proto.v
theories/Props_Ranges.v
theories/Props_Registry.v
theories/Props_Reorder.v
theories/Props_Repeat.v
theories/Props_Rich.v
theories/Props_Seeds.v
theories/Props_Select.v
theories/Props_Settle.v
theories/Props_Shuffle.v
theories/Props_Sorting.v
theories/Props_Special.v
theories/Props_State.v
theories/Props_Statement.v
theories/Props_Streams.v
theories/Props_Subkeys.v
theories/Props_Tags.v
theories/Props_Threads.v
theories/Props_Through.v
theories/Props_Tok.v
theories/Props_Tuples.v
theories/Props_Twice.v
theories/Props_Typing.v
theories/Props_Widen.v
theories/Props_Wider.v
theories/Proto.v
theories/Proto_main.v
theories/Py.v
theories/Ranges_main.v
theories/Record.v
theories/Record_inv.v
theories/Record_proofs.v
theories/Registry.v
theories/Registry_main.v
theories/Reorder_main.v
theories/Repeat_main.v
theories/Rich.v
theories/Rich_main.v
theories/Runtime.v
theories/Seeds_main.v
theories/Select.v
theories/Select_main.v
theories/Select_proofs.v
theories/Select_proofs2.v
theories/Settle_main.v
theories/Shuffle_main.v
theories/Sorting.v
theories/Sorting_main.v
theories/Spec_Added.v
theories/Spec_Again.v
theories/Spec_Alike.v
theories/Spec_Anykeys.v
theories/Spec_Asserts.v
theories/Spec_Attrs.v
theories/Spec_Bodies.v
theories/Spec_Changes.v
theories/Spec_Classes.v
theories/Spec_Compat.v
theories/Spec_Convert.v
theories/Spec_Copy.v
theories/Spec_Crowd.v
theories/Spec_Deep.v
theories/Spec_Dicts.v
theories/Spec_Edits.v
theories/Spec_Evolve.v
theories/Spec_Extras.v
theories/Spec_Factories.v
theories/Spec_Filler.v
theories/Spec_Given.v
theories/Spec_Graph.v
theories/Spec_Hints.v
theories/Spec_Hist.v
theories/Spec_Inherit.v
theories/Spec_Inst.v
theories/Spec_Json.v
theories/Spec_Keyed.v
theories/Spec_Keywords.v
theories/Spec_Lax.v
theories/Spec_Members.v
theories/Spec_Mixed.v
theories/Spec_Mutable.v
theories/Spec_Names.v
theories/Spec_Ranges.v
theories/Spec_Record.v
theories/Spec_Registry.v
theories/Spec_Reorder.v
theories/Spec_Repeat.v
theories/Spec_Seeds.v
theories/Spec_Select.v
theories/Spec_Settle.v
theories/Spec_Sorting.v
theories/Spec_Special.v
theories/Spec_State.v
theories/Spec_Statement.v
theories/Spec_Streams.v
theories/Spec_Subkeys.v
theories/Spec_Tags.v
theories/Spec_Threads.v
theories/Spec_Through.v
theories/Spec_Tokens.v
theories/Spec_Typing.v
theories/Spec_Wider.v
theories/Special.v
theories/Special_main.v
theories/State_main.v
theories/Statement.v
theories/Statement_main.v
theories/Streams.v
theories/Streams_main.v
theories/Subkeys.v
theories/Subkeys_main.v
theories/Tags.v
theories/Tags_main.v
theories/Threads.v
theories/Threads_main.v
theories/Through.v
theories/Through_main.v
theories/Tok_main.v
theories/Tokens.v
theories/Tuples_main.v
theories/Twice_main.v
theories/Typing_main.v
theories/Widen_main.v
theories/Wider_main.v
