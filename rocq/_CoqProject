-Q theories Verif
theories/Base.v
theories/BaseFacts.v
theories/Utf8.v
theories/FormUrl.v
theories/Base64.v
theories/Sha256.v
theories/SpecCalendar.v
theories/Time.v
theories/JsonTree.v
theories/Json.v
theories/Policy.v
theories/Effects.v
theories/Keys.v
theories/Scope.v
theories/HtmlForm.v
theories/Url.v
theories/SignedUrl.v
theories/Calls.v
theories/Conc.v
theories/EffectsFacts.v
theories/SpecCodec.v
theories/SpecSha.v
theories/SpecJson.v
theories/CodecFacts.v
theories/ShaFacts.v
theories/FormUrlFacts.v
theories/UrlFacts.v
theories/CalendarFacts.v
theories/TimeFacts.v
theories/JsonFacts.v
theories/SpecToken.v
theories/TokenFacts.v
theories/PolicyFacts.v
theories/SpecPolicy.v
theories/SpecTrace.v
theories/SpecConc.v
theories/Sim.v
theories/SpecUrl.v
theories/UrlSpecFacts.v
theories/SignedUrlFacts.v
theories/HeaderFacts.v
theories/SpecForm.v
theories/FormFacts.v
theories/KeysFacts.v
theories/CallFacts.v
theories/SpecSign.v
theories/SignFacts.v
theories/Discipline.v
theories/Obeys.v
theories/ConcFacts.v
theories/RefreshFacts.v
theories/Demo.v
theories/UrlResult.v
theories/UrlQueryFacts.v
theories/Prop_Codec.v
theories/Prop_Sha.v
theories/Prop_Time.v
theories/Prop_Policy.v
theories/Prop_ServiceAccount.v
theories/Prop_Scope.v
theories/Prop_Keys.v
theories/Prop_Form.v
theories/Prop_Url.v
theories/Prop_UrlPath.v
theories/Prop_UrlQuery.v
theories/Prop_UrlScope.v
theories/Prop_UrlHeaders.v
theories/Prop_Bound.v
theories/Prop_Conc.v
theories/SpecServer.v
theories/Prop_Server.v
theories/SpecSecret.v
theories/Prop_Secret.v
theories/SpecRequests.v
theories/Prop_Requests.v
theories/SpecTimeText.v
theories/Prop_TimeText.v
theories/Prop_TimeBasic.v
theories/SpecPolicyText.v
theories/Prop_PolicyText.v
theories/SpecUtf8.v
theories/Utf8Facts.v
theories/SpecConstructors.v
theories/Prop_Constructors.v
theories/SpecHistory.v
theories/HistoryFacts.v
theories/Prop_History.v
theories/Prop_Serial.v
theories/Fifo.v
theories/SpecFifo.v
theories/FifoFacts.v
theories/Prop_Fifo.v
theories/Uploader.v
theories/SpecUploader.v
theories/UploaderFacts.v
theories/Prop_Uploader.v
theories/Target.v
theories/SpecTarget.v
theories/Prop_Target.v
theories/SpecPurpose.v
theories/Prop_Purpose.v
theories/Messages.v
theories/SpecMessages.v
theories/Prop_Messages.v
theories/Prop_Host.v
theories/Redirect.v
theories/SpecRedirect.v
theories/Prop_Redirect.v
theories/SpecTexts.v
theories/Prop_Ascii.v
theories/Prop_Texts.v
theories/Rsa.v
theories/SpecRsa.v
theories/NumberFacts.v
theories/DerFacts.v
theories/RsaFacts.v
theories/PemFacts.v
theories/DemoRsa.v
theories/ConformanceRsa.v
theories/Prop_Rsa.v
theories/SpecUpload.v
theories/Prop_Upload.v
theories/Prop_KeyFile.v
theories/SpecPath.v
theories/Prop_Path.v
theories/SpecName.v
theories/Prop_Name.v
theories/SpecParameter.v
theories/Prop_Parameter.v
theories/Page.v
theories/SpecPage.v
theories/Prop_Page.v
theories/SpecExact.v
theories/Prop_Exact.v
theories/Multipart.v
theories/SpecMultipart.v
theories/Prop_Multipart.v
theories/SpecPlatform.v
theories/Prop_Platform.v
theories/Login.v
theories/SpecLogin.v
theories/Prop_Login.v
theories/SpecFormExact.v
theories/Prop_FormExact.v
theories/SpecRequestUrl.v
theories/Prop_RequestUrl.v
theories/SpecAddressText.v
theories/Prop_AddressText.v
theories/Prop_LoginText.v
theories/Prop_AccountText.v
theories/SpecHostFree.v
theories/Prop_HostFree.v
theories/SpecHostHistory.v
theories/Prop_HostHistory.v
theories/SpecRate.v
theories/Prop_Rate.v
theories/SpecAddress.v
theories/Prop_Address.v
theories/SpecRecovery.v
theories/Prop_Recovery.v
theories/SpecChange.v
theories/Prop_Change.v
theories/SpecAgree.v
theories/Prop_Agree.v
theories/Prop_SystemTime.v
theories/Prop_RedirectHeaders.v
theories/Prop_Sources.v
theories/Assumptions.v
theories/Conformance.v
