-Q theories Verif
theories/PyStr.v
theories/PyDict.v
theories/PyUtf8.v
theories/Model_Rules.v
theories/Spec_Rules.v
theories/Proofs_Rules.v
theories/Props_Rules.v
theories/Model_Headers.v
theories/Spec_Headers.v
theories/Proofs_Headers.v
theories/Props_Headers.v
theories/PyPath.v
theories/Model_Parser.v
theories/Spec_Parser.v
theories/Proofs_Parser.v
theories/Model_Build.v
theories/Props_Parser.v
theories/Spec_Build.v
theories/Proofs_Build.v
theories/Props_Build.v
theories/Model_Meta.v
theories/Spec_Meta.v
theories/Proofs_Meta.v
theories/Props_Meta.v
theories/Model_Conf.v
theories/Spec_Conf.v
theories/Proofs_Conf.v
theories/Props_Conf.v
theories/Model_Files.v
theories/Spec_Files.v
theories/Proofs_Files.v
theories/Props_Files.v
theories/Model_Net.v
theories/Spec_Net.v
theories/Proofs_Net.v
theories/Props_Net.v
theories/Model_Relays.v
theories/Spec_Relays.v
theories/Proofs_Relays.v
theories/Props_Relays.v
theories/Model_Server.v
theories/Spec_Server.v
theories/Proofs_Server.v
theories/Props_Server.v
theories/Model_Report.v
theories/Spec_Report.v
theories/Proofs_Report.v
theories/Props_Report.v
theories/Model_Context.v
theories/Spec_Context.v
theories/Proofs_Context.v
theories/Props_Context.v
theories/Model_Awl.v
theories/Spec_Awl.v
theories/Proofs_Awl.v
theories/Props_Awl.v
theories/Model_AutoLearn.v
theories/Spec_AutoLearn.v
theories/Proofs_AutoLearn.v
theories/Props_AutoLearn.v
theories/Model_BayesStore.v
theories/Spec_BayesStore.v
theories/Proofs_BayesStore.v
theories/Props_BayesStore.v
theories/Model_BayesScan.v
theories/Spec_BayesScan.v
theories/Proofs_BayesScan.v
theories/Props_BayesScan.v
theories/Model_BayesChi.v
theories/Spec_BayesChi.v
theories/Proofs_BayesChi.v
theories/Props_BayesChi.v
theories/PyRe.v
theories/Proofs_PyRe.v
theories/Model_Wlbl.v
theories/Spec_Wlbl.v
theories/Proofs_Wlbl.v
theories/Props_Wlbl.v
theories/Model_Dns.v
theories/Spec_Dns.v
theories/Proofs_Dns.v
theories/Props_Dns.v
theories/Model_Tags.v
theories/Spec_Tags.v
theories/Proofs_Tags.v
theories/Props_Tags.v
theories/Model_Uri.v
theories/Spec_Uri.v
theories/Proofs_Uri.v
theories/Props_Uri.v
theories/Model_Spf.v
theories/Spec_Spf.v
theories/Proofs_Spf.v
theories/Props_Spf.v
theories/Model_RelayEval.v
theories/Spec_RelayEval.v
theories/Proofs_RelayEval.v
theories/Props_RelayEval.v
theories/Model_BodyEval.v
theories/Spec_BodyEval.v
theories/Proofs_BodyEval.v
theories/Props_BodyEval.v
theories/Model_Dkim.v
theories/Spec_Dkim.v
theories/Proofs_Dkim.v
theories/Props_Dkim.v
theories/Model_Feedback.v
theories/Spec_Feedback.v
theories/Proofs_Feedback.v
theories/Props_Feedback.v
theories/Model_FreeMail.v
theories/Spec_FreeMail.v
theories/Proofs_FreeMail.v
theories/Props_FreeMail.v
theories/Model_HeaderEval.v
theories/Spec_HeaderEval.v
theories/Proofs_HeaderEval.v
theories/Props_HeaderEval.v
theories/Model_BayesTok.v
theories/Spec_BayesTok.v
theories/Proofs_BayesTok.v
theories/Props_BayesTok.v
theories/Model_MimeEval.v
theories/Spec_MimeEval.v
theories/Proofs_MimeEval.v
theories/Props_MimeEval.v
theories/Model_Attach.v
theories/Spec_Attach.v
theories/Proofs_Attach.v
theories/Props_Attach.v
theories/Model_Tools.v
theories/Spec_Tools.v
theories/Proofs_Tools.v
theories/Props_Tools.v
theories/Regexp.v
theories/Model_Received.v
theories/Spec_Received.v
theories/Proofs_Regexp.v
theories/Proofs_RegexpFail.v
theories/Proofs_Received.v
theories/Proofs_ReceivedIp.v
theories/Proofs_Handover.v
theories/Proofs_ReceivedFields.v
theories/Proofs_ReceivedSender.v
theories/Props_Received.v
theories/Spec_Regexp.v
theories/Proofs_RegexpLang.v
theories/Spec_Template.v
theories/Proofs_Template.v
theories/Model_Provider.v
theories/Spec_Provider.v
theories/Proofs_Provider.v
theories/Proofs_ProviderIp.v
theories/Props_Provider.v
theories/Spec_ReceivedFields.v
theories/Proofs_ReceivedMore.v
theories/Props_ReceivedMore.v
theories/Spec_Dynamic.v
theories/Proofs_Dynamic.v
theories/Proofs_DynamicRules.v
theories/Proofs_UniqueId.v
theories/Proofs_UniqueNumber.v
theories/Props_Dynamic.v
theories/Model_Scripts.v
theories/Spec_Scripts.v
theories/Proofs_Scripts.v
theories/Model_PluginNames.v
theories/Spec_PluginNames.v
theories/Proofs_PluginNames.v
theories/Props_Scripts.v
theories/Model_DnsConf.v
theories/Spec_DnsConf.v
theories/Proofs_DnsConf.v
theories/Props_DnsConf.v
theories/Model_BayesReport.v
theories/Spec_BayesReport.v
theories/Proofs_BayesReport.v
theories/Props_BayesReport.v
theories/PyMime.v
theories/Model_Load.v
theories/Spec_Load.v
theories/Proofs_Load.v
theories/Proofs_Mime.v
theories/Props_Load.v
theories/PyHtml.v
theories/Spec_Html.v
theories/Proofs_Html.v
theories/Proofs_HtmlDoc.v
theories/Proofs_HtmlLoad.v
theories/Props_Html.v
theories/Model_Links.v
theories/Spec_Links.v
theories/Proofs_Links.v
theories/Props_Links.v
theories/PyEmail.v
theories/Model_Message.v
theories/Spec_Message.v
theories/Proofs_Email.v
theories/Proofs_Split.v
theories/Proofs_Round.v
theories/Proofs_Message.v
theories/Props_Message.v
theories/PyAddr.v
theories/Model_Address.v
theories/Spec_Address.v
theories/Proofs_Address.v
theories/Proofs_AddressStrict.v
theories/Proofs_AddressAll.v
theories/Proofs_AddressMsg.v
theories/Props_Address.v
theories/RegexpSub.v
theories/Model_BayesChew.v
theories/Proofs_RegexpSub.v
theories/Spec_BayesChew.v
theories/Proofs_BayesChew.v
theories/Proofs_BayesStop.v
theories/Proofs_BayesId.v
theories/Proofs_BayesType.v
theories/Proofs_BayesBody.v
theories/Props_BayesChew.v
theories/Model_Program.v
theories/Spec_Program.v
theories/Proofs_Program.v
theories/Props_Program.v
theories/Spec_ProgReport.v
theories/Props_ProgReport.v
theories/Model_ShortMeta.v
theories/Spec_ShortMeta.v
theories/Proofs_ShortMeta.v
theories/Props_ShortMeta.v
theories/Model_Lists.v
theories/Spec_Lists.v
theories/Proofs_Lists.v
theories/Props_Lists.v
theories/Proofs_AddressBad.v
theories/Props_AddressBad.v
theories/Spec_MainOptions.v
theories/Props_MainOptions.v
theories/Model_Stock.v
theories/Spec_Stock.v
theories/Proofs_Stock.v
theories/Props_Stock.v
theories/Spec_Perl.v
theories/Proofs_Perl.v
theories/Props_Perl.v
theories/Model_Lazy.v
theories/Props_Lazy.v
theories/Model_Dump.v
theories/Spec_Dump.v
theories/Proofs_Dump.v
theories/Props_Dump.v
theories/Model_Razor.v
theories/Props_Razor.v
theories/Model_BayesRead.v
theories/Spec_BayesRead.v
theories/Props_BayesRead.v
theories/Model_Where.v
theories/Spec_Where.v
theories/Proofs_Where.v
theories/Props_Where.v
theories/Props_Dangling.v
