-Q theories Verif
theories/Base.v
theories/F64.v
theories/StrMap.v
theories/Value.v
theories/WfDec.v
theories/MBasic.v
theories/MCopy.v
theories/SCopy.v
theories/LCopy.v
theories/LBasic.v
theories/Props_copy.v
theories/MGet.v
theories/SGet.v
theories/LGet.v
theories/Props_get.v
theories/MMap.v
theories/MMat.v
theories/SMap.v
theories/LMap.v
theories/Props_map.v
theories/Props_mat.v
theories/MPromote.v
theories/SPromote.v
theories/LPromote.v
theories/Props_promote.v
theories/LCopyto.v
theories/Props_copyto.v
theories/MRef.v
theories/MCollapse.v
theories/SCollapse.v
theories/LCollapse.v
theories/LCollapse2.v
theories/Props_collapse.v
theories/MSerialize.v
theories/SSerialize.v
theories/LSerialize.v
theories/LSerialize2.v
theories/Props_serialize.v
theories/MCompare.v
theories/SCompare.v
theories/Props_compare.v
theories/MNum.v
theories/LNum.v
theories/LNum2.v
theories/MText.v
theories/SText.v
theories/LText.v
theories/LTable.v
theories/Props_text.v
theories/MCapi.v
theories/SCapi.v
theories/LCapi.v
theories/LCapi2.v
theories/LCapi3.v
theories/Props_capi.v
theories/MJson.v
theories/SJson.v
theories/LJson.v
theories/LJson2.v
theories/Props_json.v
theories/Props_more.v
theories/MJson2.v
theories/LJson2Run.v
theories/SJsonText.v
theories/LJson2Lex.v
theories/LJson2Parse.v
theories/LBuild.v
theories/LJson2Doc.v
theories/SJsonToks.v
theories/LJsonToks.v
theories/LJsonTaken.v
theories/Props_json2.v
theories/SToJson.v
theories/MToJson.v
theories/LToJson.v
theories/LToJsonNum.v
theories/LRound.v
theories/Props_tojson.v
theories/Props_capi2.v
theories/Props_text2.v
theories/MYaml.v
theories/MToml.v
theories/SDocs.v
theories/LDocs.v
theories/Props_docs.v
theories/MLua.v
theories/SLua.v
theories/LLua.v
theories/LLuaRead.v
theories/LLuaBack.v
theories/Props_lua.v
theories/Props_lua2.v
theories/SRef.v
theories/LRef.v
theories/Props_ref.v
theories/MToToml.v
theories/SToToml.v
theories/LToToml.v
theories/Props_totoml.v
theories/MToYaml.v
theories/SToYaml.v
theories/LToYaml.v
theories/Props_toyaml.v
theories/MMatlab.v
theories/SMatlab.v
theories/LMatlab.v
theories/Props_matlab.v
theories/MDump.v
theories/SDump.v
theories/LDump.v
theories/Props_dump.v
theories/MTabFmt.v
theories/STabFmt.v
theories/LTabFmt.v
theories/Props_tabfmt.v
theories/MRuby.v
theories/SRuby.v
theories/LRuby.v
theories/LRuby2.v
theories/Props_ruby.v
theories/MRaw.v
theories/Props_raw.v
theories/Props_order.v
theories/MAlias.v
theories/LAlias.v
theories/LAlias2.v
theories/Props_alias.v
theories/Props_hex.v
theories/Props_capi3.v
theories/MRapid.v
theories/SRapid.v
theories/LRapidNum.v
theories/LRapidStr.v
theories/LRapid.v
theories/LRapidInt.v
theories/LRapidReal.v
theories/LRapidUtf.v
theories/LRapidRel.v
theories/LRapidAcc.v
theories/LRapidFin.v
theories/LRapidDoc.v
theories/LRapidOut.v
theories/Props_rapid.v
theories/MView.v
theories/Props_view.v
theories/Props_lua3.v
theories/Props_more2.v
theories/MOps.v
theories/SOps.v
theories/LOps.v
theories/LOps2.v
theories/Props_ops.v
theories/SSafe.v
theories/LSafe.v
theories/Props_safe.v
theories/SLocal.v
theories/Props_local.v
theories/SThrow.v
theories/Props_throw.v
theories/Props_commute.v
theories/SClash.v
theories/LClash.v
theories/SClashJson.v
theories/Props_clash.v
theories/SProject.v
theories/Props_project.v
theories/SCollapseFail.v
theories/Props_collapsefail.v
theories/SDefined.v
theories/Props_defined.v
theories/Props_agree.v
theories/Props_stored.v
theories/Props_defjson.v
theories/STyped.v
theories/Props_typed.v
theories/Props_defdocs.v
theories/Props_storeddocs.v
theories/Props_again.v
theories/STight.v
theories/Props_tight.v
theories/Props_table.v
theories/Props_members.v
