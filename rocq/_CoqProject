-Q theories Verif
theories/Base.v
theories/Model_Ident.v
theories/Model_Path.v
theories/Model_Import.v
theories/Model_Text.v
theories/Model_Config.v
theories/Model_Type.v
theories/Model_IntoRs.v
theories/Model_World.v
theories/Model_Out.v
theories/Model_Function.v
theories/Model_Property.v
theories/Model_Class.v
theories/Model_Module.v
theories/Model_Parse.v
theories/Model_Codegen.v
theories/Model_Io.v
theories/Model_Build.v
theories/Spec_Path.v
theories/Spec_Names.v
theories/Spec_Text.v
theories/Spec_Type.v
theories/Spec_Loose.v
theories/Spec_Rust.v
theories/Spec_Call.v
theories/Spec_Io.v
theories/Spec_Items.v
theories/Spec_Tree.v
theories/Spec_Api.v
theories/Spec_Safe.v
theories/Spec_Out.v
theories/Spec_Prop.v
theories/Spec_Privacy.v
theories/Spec_Attr.v
theories/Spec_Switch.v
theories/Spec_Full.v
theories/Spec_Doc.v
theories/Example_World.v
theories/Proof_Base.v
theories/Proof_Ident.v
theories/Proof_Path.v
theories/Proof_Lookup.v
theories/Proof_Text.v
theories/Proof_Repair.v
theories/Proof_Type.v
theories/Proof_Ann.v
theories/Proof_Union.v
theories/Proof_Total.v
theories/Proof_Loose.v
theories/Proof_Obj.v
theories/Proof_IntoRs.v
theories/Proof_Call.v
theories/Proof_Function.v
theories/Proof_Fresh.v
theories/Proof_Method.v
theories/Proof_Kind.v
theories/Proof_Io.v
theories/Proof_Items.v
theories/Proof_Module.v
theories/Proof_Parse.v
theories/Proof_Forest.v
theories/Proof_Err.v
theories/Proof_Api.v
theories/Proof_Honest.v
theories/Proof_Order.v
theories/Proof_Calm.v
theories/Proof_Rooted.v
theories/Proof_Parts.v
theories/Proof_Property.v
theories/Proof_Scope.v
theories/Proof_Embed.v
theories/Proof_Deps.v
theories/Proof_Attr.v
theories/Proof_Shown.v
theories/Proof_Switch.v
theories/Proof_Docs.v
theories/Proof_Full.v
theories/Proof_Doc.v
theories/Example_Honest.v
theories/Prop_Names.v
theories/Prop_Text.v
theories/Prop_Type.v
theories/Prop_Rust.v
theories/Prop_Function.v
theories/Prop_Io.v
theories/Prop_Items.v
theories/Prop_Forest.v
theories/Prop_Attr.v
theories/Prop_Shown.v
theories/Prop_Switch.v
theories/Prop_Full.v
theories/Prop_Doc.v
theories/Spec_Acts.v
theories/Proof_Acts.v
theories/Prop_Acts.v
theories/Spec_Sig.v
theories/Proof_Sig.v
theories/Prop_Sig.v
theories/Spec_Check.v
theories/Proof_Check.v
theories/Prop_Check.v
theories/Spec_Term.v
theories/Proof_Term.v
theories/Prop_Term.v
theories/Spec_Use.v
theories/Proof_Use.v
theories/Prop_Use.v
theories/Spec_Clash.v
theories/Proof_Distinct.v
theories/Proof_Clash.v
theories/Prop_Clash.v
theories/Spec_Alias.v
theories/Proof_Alias.v
theories/Prop_Alias.v
theories/Spec_Lex.v
theories/Model_Token.v
theories/Model_Print.v
theories/Spec_Print.v
theories/Proof_Lex.v
theories/Proof_Print.v
theories/Proof_Written.v
theories/Proof_Texts.v
theories/Example_Tests.v
theories/Prop_Print.v
theories/Spec_Grammar.v
theories/Proof_Grammar.v
theories/Proof_Valid.v
theories/Proof_Decide.v
theories/Prop_Grammar.v
theories/Spec_Code.v
theories/Spec_Behave.v
theories/Proof_Code.v
theories/Proof_Ast.v
theories/Proof_Run.v
theories/Proof_File.v
theories/Proof_Behave.v
theories/Prop_Code.v
theories/Spec_Decl.v
theories/Proof_Decl.v
theories/Proof_Stated.v
theories/Prop_Decl.v
theories/Spec_Hash.v
theories/Proof_Hash.v
theories/Proof_Twin.v
theories/Proof_Reorder.v
theories/Prop_Hash.v
theories/Spec_Resolve.v
theories/Proof_Resolve.v
theories/Prop_Resolve.v
theories/Spec_Args.v
theories/Model_Args.v
theories/Proof_Args.v
theories/Prop_Args.v
theories/Proof_Getter.v
theories/Prop_Getter.v
theories/Spec_Value.v
theories/Proof_Value.v
theories/Prop_Value.v
theories/Proof_Setget.v
theories/Prop_Setget.v
theories/Proof_Argument.v
theories/Prop_Argument.v
theories/Spec_Keep.v
theories/Proof_Keep.v
theories/Prop_Keep.v
theories/Spec_More.v
theories/Proof_More.v
theories/Prop_More.v
theories/Spec_Block.v
theories/Proof_Block.v
theories/Spec_Fuller.v
theories/Proof_Fuller.v
theories/Prop_Block.v
theories/Spec_Wider.v
theories/Proof_Wider.v
theories/Prop_Wider.v
theories/Spec_Open.v
theories/Proof_Open.v
theories/Proof_Opened.v
theories/Prop_Open.v
theories/Spec_Added.v
theories/Proof_Added.v
theories/Prop_Added.v
theories/Spec_Deep.v
theories/Proof_Deep.v
theories/Prop_Deep.v
